(** Proofs about the cut-off of the line widths: the whole of get_b_param_dist. *)
From Coq Require Import List Reals Arith Bool Lia Lra Permutation Sorted.
From Verif Require Import AbsorptionSpec SnapshotModel FilterModel FitModel FitProofs BdistModel BdistSpec BdistProofs.
Import ListNotations.
Local Open Scope R_scope.

Lemma above_is : forall x p, residual x p = above x p.
Proof. reflexivity. Qed.

Lemma sigma_is : forall x pts, pts <> [] -> sigma_fit x pts = Some (scatter (map (above x) pts)).
Proof.
  intros x pts H. unfold sigma_fit, scatter, average. destruct pts as [|p pts']; [contradiction|].
  rewrite !map_length. rewrite (map_ext (residual x) (above x) (above_is x)). reflexivity.
Qed.

Section Fit.
Variable fit : R * R -> list pt -> R * R.

Lemma filter_true : forall l : list pt, filter (fun _ => true) l = l.
Proof. induction l; cbn; congruence. Qed.

Lemma cut_above_spec : forall fuel d result z pts, d <> 0%nat -> (length pts < fuel)%nat ->
  exists x left, cut_above fit fuel d result (fit z pts) pts = Some (x, left) /\ settled fit z pts x left.
Proof.
  induction fuel as [|fuel IH]; intros d result z pts Hd Hf; [lia|].
  destruct d as [|d]; [contradiction|]. cbn [cut_above].
  set (x := fit z pts).
  set (used := match sigma_fit x pts with None => [] | Some sigma => filter (fun p => rleb (residual x p) sigma) pts end).
  assert (U : used = filter (fun p => rleb (above x p) (scatter (map (above x) pts))) pts).
  { unfold used. destruct pts as [|p pts']; [reflexivity|]. rewrite sigma_is by discriminate. reflexivity. }
  clearbody used.
  assert (L : (length used <= length pts)%nat).
  { rewrite U. pose proof (filter_le _ (fun p => rleb (above x p) (scatter (map (above x) pts))) (fun _ => true) pts
      (fun _ _ _ => eq_refl)) as H. rewrite filter_true in H. exact H. }
  destruct (length pts - length used)%nat as [|r] eqn:Er.
  - assert (E : forall p, In p pts -> above x p <= scatter (map (above x) pts)).
    { intros p I. apply rleb_true.
      apply (filter_same _ (fun p => rleb (above x p) (scatter (map (above x) pts))) (fun _ => true) pts
        (fun _ _ _ => eq_refl)); [|exact I|reflexivity].
      rewrite filter_true, <- U. unfold pt in *. lia. }
    assert (Eu : used = pts).
    { rewrite U. rewrite <- filter_true. apply filter_ext_in. intros p I. apply rleb_true. exact (E p I). }
    exists x, used. split; [destruct fuel; reflexivity|]. rewrite Eu. apply set_end. exact E.
  - destruct (IH (S r) x x used ltac:(lia) ltac:(lia)) as (y & left & R1 & R2).
    exists y, left. split; [exact R1|].
    apply (set_more fit z pts used); [|unfold pt in *; lia|exact R2].
    exists (fun p => rleb (above x p) (scatter (map (above x) pts))). split; [exact U|].
    intros p _. apply rleb_true.
Qed.

Lemma cut_below_spec : forall x l, exists k, chosen (not_below l x) l k /\
  cut_below fit x l = (Rpower 10 (fst (fit x k)), snd (fit x k)).
Proof.
  intros x l. exists (filter (fun p => rltb (-1 * scatter (map (above x) l)) (above x p)) l). split.
  - exists (fun p => rltb (-1 * scatter (map (above x) l)) (above x p)). split; [reflexivity|].
    intros p _. rewrite rltb_true. unfold not_below. split; intros; lra.
  - unfold cut_below. destruct l as [|p l']; [reflexivity|]. rewrite sigma_is by discriminate. reflexivity.
Qed.

Lemma lg_pow : forall x, 0 < x -> Rpower 10 (lg x) = x.
Proof.
  intros x H. unfold Rpower, lg.
  assert (L : 0 < ln 10) by (rewrite <- ln_1; apply ln_increasing; lra).
  replace (ln x / ln 10 * ln 10) with (ln x) by (field; lra). apply exp_ln; exact H.
Qed.

Lemma in_use_usable : forall s, in_use s = true <-> usable s.
Proof.
  intros (n, b). unfold in_use, usable. cbn [fst snd]. rewrite !andb_true_iff, !rltb_true. tauto.
Qed.

Lemma points_are : forall obs, usable_points obs (sorted_points obs).
Proof.
  intros obs. exists in_use, (map (fun s => (lg (fst s), lg (snd s))) (filter in_use obs)).
  split; [exact in_use_usable|]. split.
  - assert (H : forall s, In s (filter in_use obs) -> usable s) by (intros s I; apply filter_In in I; apply in_use_usable; tauto).
    revert H. generalize (filter in_use obs). induction l as [|s l IH]; intros H; cbn [map]; constructor.
    + destruct (H s (or_introl eq_refl)) as [[B1 B2] [N1 N2]]. pose proof (exp_pos (12.5 * ln 10)) as P.
      unfold Rpower in N1. unfold logs; cbn [fst snd]. rewrite !lg_pow by lra. split; reflexivity.
    + apply IH. intros t I; apply H; right; exact I.
  - symmetry. apply sort_perm.
Qed.

Lemma lg_between : forall t x u, Rpower 10 t < x < Rpower 10 u -> t < lg x < u.
Proof.
  intros t x u [H1 H2]. assert (P : 0 < x) by (pose proof (exp_pos (t * ln 10)); unfold Rpower in H1; lra).
  rewrite <- (lg_pow x P) in H1, H2. split.
  - destruct (Rlt_dec t (lg x)) as [A|A]; [exact A|]. assert (B : lg x <= t) by lra.
    apply (Rle_Rpower 10) in B; lra.
  - destruct (Rlt_dec (lg x) u) as [A|A]; [exact A|]. assert (B : u <= lg x) by lra.
    apply (Rle_Rpower 10) in B; lra.
Qed.

Lemma in_points : forall obs p, In p (sorted_points obs) -> 12.5 < fst p < 14.5.
Proof.
  intros obs p I. apply (Permutation_in _ (sort_perm _)) in I. apply in_map_iff in I.
  destruct I as (s & <- & I). apply filter_In in I. destruct I as [_ U]. apply in_use_usable in U.
  destruct U as [_ U]. cbn [fst]. apply lg_between; exact U.
Qed.

Lemma points_bins : forall obs, sorted_points obs = concat (map (fun i => bin_of i (sorted_points obs)) (seq 0 8)).
Proof.
  intros obs. set (pts := sorted_points obs).
  assert (Ss : StronglySorted by_column pts) by apply sort_sorted.
  pose proof (bins_cover pts 8 0 Ss) as H.
  assert (H0 : from (bin_low 0) pts = pts).
  { assert (A : forall l, (forall p, In p l -> 12.5 < fst p) -> from (bin_low 0) l = l).
    { induction l as [|a l IHl]; intros Hl; [reflexivity|]. unfold from in *. cbn [filter].
      assert (rleb (bin_low 0) (fst a) = true) as ->.
      { apply rleb_true. specialize (Hl a (or_introl eq_refl)). unfold bin_low; cbn [INR]; lra. }
      f_equal. apply IHl. intros p I; apply Hl; right; exact I. }
    apply A. intros p I; apply (in_points obs p I). }
  assert (H8 : from (bin_low (0 + 8)) pts = []).
  { assert (A : forall l, (forall p, In p l -> fst p < 14.5) -> from (bin_low (0 + 8)) l = []).
    { induction l as [|a l IHl]; intros Hl; [reflexivity|]. unfold from in *. cbn [filter].
      destruct (rleb (bin_low (0 + 8)) (fst a)) eqn:E.
      - apply rleb_true in E. specialize (Hl a (or_introl eq_refl)). unfold bin_low in E. cbn in E. lra.
      - apply IHl. intros p I; apply Hl; right; exact I. }
    apply A. intros p I; apply (in_points obs p I). }
  rewrite H0, H8, app_nil_r in H. exact H.
Qed.

Lemma in_bin_quarter : forall i p, in_bin i p = true <-> quarter i p.
Proof.
  intros i p. unfold in_bin, quarter, bin_low. rewrite andb_true_iff, rleb_true, rltb_true, S_INR. split; intros; lra.
Qed.

Lemma bin_survivors : forall fuel pts i m, (length pts <= fuel)%nat -> reject fuel pts (bin_range i) = Some m ->
  exists n, chosen narrow (bin_of i pts) n /\ clipped n (filter m (bin_of i pts)).
Proof.
  intros fuel pts i m Hf Hr.
  assert (Hl : (length (filter (bin_range i) pts) <= fuel)%nat).
  { pose proof (filter_le _ (bin_range i) (fun _ => true) pts (fun _ _ _ => eq_refl)) as H. rewrite filter_true in H. lia. }
  destruct (reject_spec pts fuel (bin_range i) Hl) as (m' & R1 & R2 & R3).
  rewrite Hr in R1. injection R1 as <-.
  assert (Hm : filter m (bin_of i pts) = filter m pts).
  { unfold bin_of. rewrite <- filter_and. apply filter_ext. intros p. destruct (m p) eqn:E; [|apply andb_false_r].
    specialize (R2 p E). unfold bin_range in R2. apply andb_prop in R2. destruct R2 as [-> _]. reflexivity. }
  rewrite Hm. exists (filter (bin_range i) pts). split; [|exact R3].
  exists (fun p => rltb (Rpower 10 (snd p)) 40). split; [apply filter_and|]. intros p _. apply rltb_true.
Qed.

Lemma C64_cutoff_aux : forall obs fuel, (length obs <= fuel)%nat ->
  exists pts, usable_points obs pts /\
  ((exists i, (i < 8)%nat /\ forall p, In p pts -> ~ quarter i p) -> get_b_param_dist fit fuel obs = Raises) /\
  ((forall i, (i < 8)%nat -> exists p, In p pts /\ quarter i p) ->
   exists (low kept : nat -> list (R * R)) guess x left last,
     (forall i, (i < 8)%nat -> chosen (fun p => quarter i p /\ narrow p) pts (low i) /\ clipped (low i) (kept i)) /\
     Rpower 10 (fst guess) = 18 /\ snd guess = 0.17 /\
     ((length pts < length obs)%nat -> settled fit guess (concat (map kept (seq 0 8))) x left) /\
     (length pts = length obs -> x = guess /\ left = concat (map kept (seq 0 8))) /\
     chosen (not_below left x) left last /\
     get_b_param_dist fit fuel obs = Done (Rpower 10 (fst (fit x last)), snd (fit x last))).
Proof.
  intros obs fuel Hf. exists (sorted_points obs). split; [apply points_are|].
  set (pts := sorted_points obs).
  assert (Ss : StronglySorted by_column pts) by apply sort_sorted.
  assert (Hlen : (length pts <= length obs)%nat).
  { unfold pts, sorted_points. rewrite (Permutation_length (sort_perm _)), map_length.
    pose proof (filter_le _ in_use (fun _ => true) obs (fun _ _ _ => eq_refl)) as H. rewrite filter_true in H. exact H. }
  assert (Hb : forall i, exists m, reject fuel pts (bin_range i) = Some m /\
      retained_bin fuel pts i = (match bin_of i pts with [] => Raises | l => Done (map m l) end)).
  { intros i. apply retained_bin_spec; [exact Ss|lia]. }
  split.
  - intros (i & Hi & Hq). unfold get_b_param_dist. fold pts.
    rewrite all_bins_raises; [reflexivity| |].
    + intros j _. destruct (Hb j) as (m & _ & E). rewrite E. destruct (bin_of j pts); [left; reflexivity|right; eexists; reflexivity].
    + exists i. split; [apply in_seq; lia|]. destruct (Hb i) as (m & _ & E). rewrite E.
      destruct (bin_of i pts) as [|p l] eqn:Eb; [reflexivity|]. exfalso.
      assert (I : In p (bin_of i pts)) by (rewrite Eb; left; reflexivity).
      unfold bin_of in I. apply filter_In in I. destruct I as [I B]. apply in_bin_quarter in B. exact (Hq p I B).
  - intros Hq.
    set (ms := fun i => match reject fuel pts (bin_range i) with Some m => m | None => fun _ => false end).
    assert (Hd : forall i, In i (seq 0 8) -> retained_bin fuel pts i = Done (map (ms i) (bin_of i pts))).
    { intros i I. apply in_seq in I. destruct (Hq i ltac:(lia)) as (p & Ip & Q). destruct (Hb i) as (m & R1 & R2).
      rewrite R2. unfold ms. rewrite R1. destruct (bin_of i pts) as [|p' l] eqn:Eb; [|reflexivity].
      exfalso. assert (J : In p (bin_of i pts)) by (unfold bin_of; apply filter_In; split; [exact Ip|apply in_bin_quarter; exact Q]).
      rewrite Eb in J. destruct J. }
    set (kept := fun i => filter (ms i) (bin_of i pts)).
    assert (Hk : exists x left, (cut_above fit fuel (length obs - length pts) (lg 18, 0.17) (fit (lg 18, 0.17) (concat (map kept (seq 0 8))))
        (concat (map kept (seq 0 8))) = Some (x, left)) /\
        ((length pts < length obs)%nat -> settled fit (lg 18, 0.17) (concat (map kept (seq 0 8))) x left) /\
        (length pts = length obs -> x = (lg 18, 0.17) /\ left = concat (map kept (seq 0 8)))).
    { destruct (Nat.eq_dec (length pts) (length obs)) as [E|E].
      - exists (lg 18, 0.17), (concat (map kept (seq 0 8))).
        split; [replace (length obs - length pts)%nat with 0%nat by lia; destruct fuel; reflexivity|].
        split; [lia|]. intros _. split; reflexivity.
      - assert (Hkl : (length (concat (map kept (seq 0 8))) <= length pts)%nat).
        { unfold pts at 1. rewrite (points_bins obs). fold pts. clear. generalize (seq 0 8). intros idx.
          induction idx as [|i idx IH]; cbn [map concat]; [lia|]. rewrite !app_length.
          pose proof (filter_le _ (ms i) (fun _ => true) (bin_of i pts) (fun _ _ _ => eq_refl)) as H.
          rewrite filter_true in H. unfold kept at 1. lia. }
        destruct (cut_above_spec fuel (length obs - length pts)%nat (lg 18, 0.17) (lg 18, 0.17) (concat (map kept (seq 0 8)))
          ltac:(lia) ltac:(lia)) as (x & left & R1 & R2).
        exists x, left. split; [exact R1|]. split; [intros _; exact R2|]. lia. }
    destruct Hk as (x & left & R1 & R2 & R3).
    destruct (cut_below_spec x left) as (last & L1 & L2).
    exists (fun i => filter (bin_range i) pts), kept, (lg 18, 0.17), x, left, last.
    split.
    { intros i Hi. split.
      - exists (bin_range i). split; [reflexivity|]. intros p _. unfold bin_range. rewrite andb_true_iff, in_bin_quarter, rltb_true.
        reflexivity.
      - unfold kept. destruct (Hb i) as (m & E & _). unfold ms. rewrite E.
        destruct (bin_survivors fuel pts i m ltac:(lia) E) as (n & (f & -> & N2) & C).
        replace (filter (bin_range i) pts) with (filter f (bin_of i pts)); [exact C|].
        unfold bin_range. rewrite filter_and. fold (bin_of i pts). apply filter_ext_in. intros p I.
        apply eq_true_iff_eq. rewrite (N2 p I). symmetry. apply rltb_true. }
    cbn [fst snd]. split; [apply lg_pow; lra|]. split; [reflexivity|].
    split; [exact R2|]. split; [exact R3|]. split; [exact L1|].
    unfold get_b_param_dist. fold pts. rewrite (all_bins_done fuel pts ms _ [] Hd). cbn [app].
    assert (Es : select (concat (map (fun i => map (ms i) (bin_of i pts)) (seq 0 8))) pts =
        Some (concat (map kept (seq 0 8)))).
    { unfold pts at 2. rewrite (points_bins obs). fold pts. apply select_concat. }
    rewrite Es. cbv zeta. rewrite R1, L2. reflexivity.
Qed.

End Fit.
