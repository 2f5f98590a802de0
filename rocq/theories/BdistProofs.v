(** Lemmas about the cut-off of the line widths. *)
From Coq Require Import List Reals Arith Bool Lia Lra Permutation Sorted.
From Verif Require Import AbsorptionSpec SnapshotModel FilterModel FitModel FitProofs BdistModel BdistSpec.
Import ListNotations.
Local Open Scope R_scope.

(** ** Filters. *)

Lemma filter_le : forall A (f g : A -> bool) l, (forall x, In x l -> f x = true -> g x = true) ->
  (length (filter f l) <= length (filter g l))%nat.
Proof.
  intros A f g l; induction l as [|x l IH]; intros H; cbn [filter]; [lia|].
  pose proof (IH (fun y I => H y (or_intror I))) as L.
  destruct (f x) eqn:F.
  - rewrite (H x (or_introl eq_refl) F). cbn [length]. lia.
  - destruct (g x); cbn [length]; lia.
Qed.

Lemma filter_same : forall A (f g : A -> bool) l, (forall x, In x l -> f x = true -> g x = true) ->
  length (filter f l) = length (filter g l) -> forall x, In x l -> g x = true -> f x = true.
Proof.
  intros A f g l; induction l as [|x l IH]; intros H E y I G; [destruct I|].
  pose proof (filter_le _ f g l (fun z J => H z (or_intror J))) as L.
  assert (Hl : forall z, In z l -> f z = true -> g z = true) by (intros z J; apply H; right; exact J).
  cbn [filter] in E.
  destruct (f x) eqn:F.
  - rewrite (H x (or_introl eq_refl) F) in E. cbn [length] in E. apply Nat.succ_inj in E.
    destruct I as [<-|I]; [exact F|]. exact (IH Hl E y I G).
  - destruct (g x) eqn:Gx; cbn [length] in E; [lia|].
    destruct I as [<-|I]; [congruence|]. exact (IH Hl E y I G).
Qed.

Lemma filter_and : forall A (f g : A -> bool) l, filter (fun x => f x && g x) l = filter g (filter f l).
Proof.
  intros A f g l; induction l as [|x l IH]; cbn [filter]; [reflexivity|].
  destruct (f x); cbn [andb filter]; rewrite IH; reflexivity.
Qed.

(** ** The rejection loop. *)

Lemma round_eq : forall pts m, filter m pts <> [] ->
  sigma_round pts m =
  (let m' := fun p => m p && rltb (Rabs (snd p - average (map snd (filter m pts)))) (2 * spread (map snd (filter m pts))) in
   (m', (length (filter m pts) - length (filter m' pts))%nat)).
Proof.
  intros pts m Hne. unfold sigma_round, spread, average.
  set (s := map snd (filter m pts)).
  assert (Hl : length s = length (filter m pts)) by (unfold s; apply map_length).
  destruct s as [|x s'] eqn:Es.
  - destruct (filter m pts); [contradiction|]. cbn in Hl; lia.
  - rewrite map_length. rewrite <- Hl. reflexivity.
Qed.

Lemma reject_spec : forall pts fuel m, (length (filter m pts) <= fuel)%nat ->
  exists m', reject fuel pts m = Some m' /\ (forall p, m' p = true -> m p = true) /\
    clipped (filter m pts) (filter m' pts).
Proof.
  intros pts fuel; induction fuel as [|fuel IH]; intros m Hf.
  - exists (fun _ => false).
    assert (E : filter m pts = []) by (destruct (filter m pts); [reflexivity|cbn in Hf; lia]).
    split; [cbn [reject]; unfold sigma_round; rewrite E; reflexivity|]. split; [discriminate|].
    assert (F : filter (fun _ : pt => false) pts = []) by (clear; induction pts; [reflexivity|assumption]).
    rewrite F, E. constructor. intros p [].
  - destruct (filter m pts) as [|x0 rest0] eqn:E0.
    + exists (fun _ => false).
      split; [cbn [reject]; unfold sigma_round; rewrite E0; reflexivity|]. split; [discriminate|].
      assert (F : filter (fun _ : pt => false) pts = []) by (clear; induction pts; [reflexivity|assumption]).
      rewrite F. constructor. intros p [].
    + assert (Hne : filter m pts <> []) by (rewrite E0; discriminate).
      rewrite <- E0 in Hf |- *. clear x0 rest0 E0.
      cbn [reject]. rewrite (round_eq _ _ Hne). cbv zeta.
      set (keep := fun p : pt => rltb (Rabs (snd p - average (map snd (filter m pts)))) (2 * spread (map snd (filter m pts)))).
      set (m1 := fun p : pt => m p && rltb (Rabs (snd p - average (map snd (filter m pts)))) (2 * spread (map snd (filter m pts)))).
      assert (Sub : forall p, m1 p = true -> m p = true) by (intros p; unfold m1; intros H; apply andb_prop in H; tauto).
      assert (F1 : filter m1 pts = filter keep (filter m pts)) by (unfold m1; apply filter_and).
      pose proof (filter_le _ m1 m pts (fun p _ => Sub p)) as L.
      destruct (length (filter m pts) - length (filter m1 pts))%nat as [|r] eqn:Er.
      * exists m1. assert (Eq : length (filter m1 pts) = length (filter m pts)) by lia.
        pose proof (filter_same _ m1 m pts (fun p _ => Sub p) Eq) as Same.
        assert (F : filter m1 pts = filter m pts).
        { apply filter_ext_in. intros p I. destruct (m p) eqn:M; [exact (Same p I M)|].
          destruct (m1 p) eqn:M1; [|reflexivity]. pose proof (Sub p M1). congruence. }
        split; [reflexivity|]. split; [exact Sub|]. rewrite F. constructor.
        intros p I. rewrite <- F in I. apply filter_In in I. destruct I as [_ M1].
        unfold m1 in M1. apply andb_prop in M1. apply rltb_true. tauto.
      * destruct (IH m1 ltac:(lia)) as (m' & R1 & R2 & R3).
        exists m'. split; [exact R1|]. split; [intros p H; apply Sub, R2, H|].
        apply (clip_more _ (filter m1 pts)); [|unfold pt in *; lia|exact R3].
        exists keep. split; [exact F1|]. intros p _. unfold keep, typical. apply rltb_true.
Qed.

(** ** The bins of a sorted list. *)

Definition by_column (a b : pt) : Prop := fst a <= fst b.

Lemma insert_pt_perm : forall p l, Permutation (insert_pt p l) (p :: l).
Proof.
  intros p l; induction l as [|q l IH]; cbn [insert_pt]; [reflexivity|].
  destruct (Rle_dec (fst p) (fst q)); [reflexivity|].
  rewrite IH. apply perm_swap.
Qed.

Lemma insert_pt_sorted : forall p l, StronglySorted by_column l -> StronglySorted by_column (insert_pt p l).
Proof.
  intros p l; induction l as [|q l IH]; intros Ss; cbn [insert_pt].
  - repeat constructor.
  - inversion Ss as [|? ? Ss' F]; subst.
    destruct (Rle_dec (fst p) (fst q)) as [L|L].
    + constructor; [exact Ss|]. constructor; [exact L|].
      rewrite Forall_forall in F |- *. intros x I. specialize (F x I). unfold by_column in *; lra.
    + constructor; [exact (IH Ss')|].
      rewrite Forall_forall in F |- *. intros x I.
      apply (Permutation_in _ (insert_pt_perm p l)) in I. destruct I as [<-|I]; [|exact (F x I)].
      unfold by_column; lra.
Qed.

Lemma sort_perm : forall l, Permutation (fold_right insert_pt [] l) l.
Proof.
  induction l as [|p l IH]; cbn [fold_right]; [reflexivity|].
  rewrite insert_pt_perm. constructor. exact IH.
Qed.

Lemma sort_sorted : forall l, StronglySorted by_column (fold_right insert_pt [] l).
Proof. induction l as [|p l IH]; cbn [fold_right]; [constructor|]. apply insert_pt_sorted; exact IH. Qed.

(** A sorted list splits at a threshold. *)
Lemma split_at : forall t l, StronglySorted by_column l ->
  l = filter (fun p => rltb (fst p) t) l ++ filter (fun p => rleb t (fst p)) l.
Proof.
  intros t l; induction l as [|p l IH]; intros Ss; [reflexivity|].
  inversion Ss as [|? ? Ss' F]; subst. cbn [filter].
  destruct (rltb (fst p) t) eqn:L.
  - apply rltb_true in L. assert (N : rleb t (fst p) = false).
    { destruct (rleb t (fst p)) eqn:E; [|reflexivity]. apply rleb_true in E; lra. }
    rewrite N. cbn [app]. f_equal. exact (IH Ss').
  - apply rltb_false in L. assert (N : rleb t (fst p) = true) by (apply rleb_true; lra).
    rewrite N.
    assert (E : filter (fun q => rltb (fst q) t) l = []).
    { clear -F L. induction l as [|q l IHl]; [reflexivity|]. inversion F as [|? ? F1 F2]; subst.
      cbn [filter]. unfold by_column in F1. destruct (rltb (fst q) t) eqn:Q; [apply rltb_true in Q; lra|]. apply IHl; exact F2. }
    rewrite E. cbn [app]. f_equal. rewrite (IH Ss') at 1. rewrite E. reflexivity.
Qed.

Lemma sorted_filter : forall (f : pt -> bool) l, StronglySorted by_column l -> StronglySorted by_column (filter f l).
Proof.
  intros f l; induction l as [|p l IH]; intros Ss; cbn [filter]; [constructor|].
  inversion Ss as [|? ? Ss' F]; subst. destruct (f p); [|exact (IH Ss')].
  constructor; [exact (IH Ss')|]. rewrite Forall_forall in F |- *. intros x I. apply F. apply filter_In in I. tauto.
Qed.

Definition from (t : R) (l : list pt) : list pt := filter (fun p => rleb t (fst p)) l.
Definition bin_of (i : nat) (l : list pt) : list pt := filter (in_bin i) l.

Lemma bin_next : forall i, 12.5 + (INR i + 1) * 0.25 = bin_low (S i).
Proof. intros; unfold bin_low; rewrite S_INR; reflexivity. Qed.

Lemma low_le : forall i, bin_low i <= bin_low (S i).
Proof. intros; unfold bin_low; rewrite S_INR; lra. Qed.

Lemma from_next : forall i l, StronglySorted by_column l ->
  from (bin_low i) l = bin_of i l ++ from (bin_low (S i)) l.
Proof.
  intros i l Ss. unfold from at 1.
  rewrite (split_at (bin_low (S i)) _ (sorted_filter _ _ Ss)). rewrite <- 2 filter_and.
  unfold bin_of, from. apply (f_equal2 (@app pt)).
  - apply filter_ext. intros p. unfold in_bin. rewrite bin_next. reflexivity.
  - apply filter_ext. intros p. pose proof (low_le i).
    destruct (rleb (bin_low (S i)) (fst p)) eqn:E; [|rewrite andb_false_r; reflexivity].
    apply rleb_true in E. assert (rleb (bin_low i) (fst p) = true) as -> by (apply rleb_true; lra). reflexivity.
Qed.

Lemma bins_cover : forall l n i, StronglySorted by_column l ->
  from (bin_low i) l = concat (map (fun j => bin_of j l) (seq i n)) ++ from (bin_low (i + n)) l.
Proof.
  intros l n; induction n as [|n IH]; intros i Ss; cbn [seq map concat app].
  - rewrite Nat.add_0_r. reflexivity.
  - rewrite <- app_assoc. replace (i + S n)%nat with (S i + n)%nat by lia. rewrite <- (IH (S i) Ss). apply from_next; exact Ss.
Qed.

(** The positions of one bin. *)
Lemma where_app : forall (f : pt -> bool) a b c, (forall p, In p a -> f p = false) -> (forall p, In p b -> f p = true) ->
  (forall p, In p c -> f p = false) ->
  filter (fun k => f (nth k (a ++ b ++ c) (0, 0))) (seq 0 (length (a ++ b ++ c))) = seq (length a) (length b).
Proof.
  intros f a b c Ha Hb Hc. rewrite !app_length. rewrite 2 seq_app. rewrite !filter_app.
  assert (forall (g : nat -> bool) s n, (forall k, (s <= k < s + n)%nat -> g k = false) -> filter g (seq s n) = []) as None.
  { intros g s n; revert s; induction n as [|n IHn]; intros s H; [reflexivity|]. cbn [seq filter]. rewrite (H s ltac:(lia)).
    apply IHn. intros k Hk; apply H; lia. }
  assert (forall (g : nat -> bool) s n, (forall k, (s <= k < s + n)%nat -> g k = true) -> filter g (seq s n) = seq s n) as All.
  { intros g s n; revert s; induction n as [|n IHn]; intros s H; [reflexivity|]. cbn [seq filter]. rewrite (H s ltac:(lia)).
    f_equal. apply IHn. intros k Hk; apply H; lia. }
  rewrite None, All, None; [rewrite app_nil_r; reflexivity| | |].
  - intros k Hk. rewrite app_nth2 by lia. rewrite app_nth2 by lia. apply Hc. apply nth_In. lia.
  - intros k Hk. rewrite app_nth2 by lia. rewrite app_nth1 by lia. apply Hb. apply nth_In. lia.
  - intros k Hk. rewrite app_nth1 by lia. apply Ha. apply nth_In. lia.
Qed.

Lemma last_seq : forall n s d, last (seq s (S n)) d = (s + n)%nat.
Proof. intros n s d. rewrite seq_S. rewrite last_last. reflexivity. Qed.

Lemma slice_mid : forall A (a b c : list A), slice (length a) (length a + length b) (a ++ b ++ c) = b.
Proof.
  intros A a b c. unfold slice. rewrite skipn_app, Nat.sub_diag, skipn_all. cbn [app skipn].
  replace (length a + length b - length a)%nat with (length b) by lia.
  rewrite firstn_app, Nat.sub_diag, firstn_all, firstn_O, app_nil_r. reflexivity.
Qed.

(** What the code keeps of bin i. *)
Lemma retained_bin_spec : forall fuel pts i, StronglySorted by_column pts -> (length pts <= fuel)%nat ->
  exists m, reject fuel pts (bin_range i) = Some m /\
    retained_bin fuel pts i = (match bin_of i pts with [] => Raises | l => Done (map m l) end).
Proof.
  intros fuel pts i Ss Hf.
  assert (Hl : (length (filter (bin_range i) pts) <= fuel)%nat).
  { pose proof (filter_le _ (bin_range i) (fun _ => true) pts (fun _ _ _ => eq_refl)) as H.
    assert (T : forall l : list pt, filter (fun _ => true) l = l) by (induction l; cbn; congruence).
    rewrite T in H. lia. }
  destruct (reject_spec pts fuel (bin_range i) Hl) as (m & R1 & _).
  exists m. split; [exact R1|]. unfold retained_bin. rewrite R1.
  pose proof (split_at (bin_low i) pts Ss) as E1. fold (from (bin_low i) pts) in E1. rewrite (from_next i pts Ss) in E1.
  set (a := filter (fun p => rltb (fst p) (bin_low i)) pts) in *.
  set (b := bin_of i pts) in *. set (c := from (bin_low (S i)) pts) in *.
  assert (W : filter (fun k => in_bin i (nth k pts (0, 0))) (seq 0 (length pts)) = seq (length a) (length b)).
  { rewrite E1. apply where_app.
    - intros p I. unfold a in I. apply filter_In in I. destruct I as [_ I]. apply rltb_true in I.
      unfold in_bin. destruct (rleb (bin_low i) (fst p)) eqn:E; [apply rleb_true in E; lra|reflexivity].
    - intros p I. unfold b, bin_of in I. apply filter_In in I. tauto.
    - intros p I. unfold c, from in I. apply filter_In in I. destruct I as [_ I]. apply rleb_true in I.
      unfold in_bin. rewrite bin_next. destruct (rltb (fst p) (bin_low (S i))) eqn:E; [apply rltb_true in E; lra|].
      apply andb_false_r. }
  rewrite W. destruct b as [|x b'] eqn:Eb; [reflexivity|].
  cbn [length]. rewrite last_seq. cbn [seq].
  replace (length a + length b' + 1)%nat with (length a + length (x :: b'))%nat by (cbn [length]; lia).
  rewrite E1 at 1. rewrite slice_mid. reflexivity.
Qed.

(** ** Choosing by a list of booleans. *)

Lemma select_app : forall f l m2 l2, select (map f l ++ m2) (l ++ l2) =
  match select m2 l2 with Some r => Some (filter f l ++ r) | None => None end.
Proof.
  intros f l m2 l2; induction l as [|p l IH]; cbn [map app select filter].
  - destruct (select m2 l2); reflexivity.
  - rewrite IH. destruct (select m2 l2); [|reflexivity]. destruct (f p); reflexivity.
Qed.

Lemma select_concat : forall (ms : nat -> pt -> bool) (ls : nat -> list pt) idx,
  select (concat (map (fun i => map (ms i) (ls i)) idx)) (concat (map ls idx)) =
  Some (concat (map (fun i => filter (ms i) (ls i)) idx)).
Proof.
  intros ms ls idx; induction idx as [|i idx IH]; cbn [map concat]; [reflexivity|].
  rewrite select_app, IH. reflexivity.
Qed.

Lemma all_bins_done : forall fuel pts ms idx acc,
  (forall i, In i idx -> retained_bin fuel pts i = Done (map (ms i) (bin_of i pts))) ->
  all_bins fuel pts idx acc = Done (acc ++ concat (map (fun i => map (ms i) (bin_of i pts)) idx)).
Proof.
  intros fuel pts ms idx; induction idx as [|i idx IH]; intros acc H; cbn [all_bins map concat].
  - rewrite app_nil_r; reflexivity.
  - rewrite (H i (or_introl eq_refl)). rewrite IH by (intros j J; apply H; right; exact J).
    rewrite app_assoc. reflexivity.
Qed.

Lemma all_bins_raises : forall fuel pts idx acc,
  (forall i, In i idx -> retained_bin fuel pts i = Raises \/ exists m, retained_bin fuel pts i = Done m) ->
  (exists i, In i idx /\ retained_bin fuel pts i = Raises) ->
  all_bins fuel pts idx acc = Raises.
Proof.
  intros fuel pts idx; induction idx as [|i idx IH]; intros acc H (j & J & Hj); [destruct J|].
  cbn [all_bins]. destruct (H i (or_introl eq_refl)) as [E|(m & E)]; rewrite E; [reflexivity|].
  apply IH.
  - intros k K; apply H; right; exact K.
  - destruct J as [<-|J]; [congruence|]. exists j. split; assumption.
Qed.
