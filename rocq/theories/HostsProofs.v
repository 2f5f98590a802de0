(** Proofs about the histogram of host halos (C112). *)
From Coq Require Import ZArith List Bool Reals Lra Lia Arith.
From Flocq Require Import Core.Raux.
From Verif Require Import AbsorptionSpec AbsorptionProofs FluxModel FluxSpec FluxProofs FluxProofs2 FluxProofs3 CddfModel CddfProofs.
From Verif Require MetalModel MetalSpec MetalProofs MetalProofs2 HaloModel.
From Verif Require Import HostsModel HostsSpec.
Import ListNotations.
Local Open Scope R_scope.

Lemma number_map : forall {A B} (f : A -> B) (P : B -> Prop) l m, number P (map f l) m <-> number (fun x => P (f x)) l m.
Proof.
  intros A B f P. induction l as [|x l IH]; intros m; cbn [map]; split; intros H; inversion H; subst.
  - constructor.
  - constructor.
  - constructor 2; [assumption|apply IH; assumption].
  - constructor 3; [assumption|apply IH; assumption].
  - constructor 2; [assumption|apply IH; assumption].
  - constructor 3; [assumption|apply IH; assumption].
Qed.

Lemma number_filter : forall {A} (g : A -> bool) (P : A -> Prop) l m, number P (filter g l) m <-> number (fun x => g x = true /\ P x) l m.
Proof.
  intros A g P. induction l as [|x l IH]; intros m; cbn [filter].
  - split; intros H; inversion H; constructor.
  - destruct (g x) eqn:G; split; intros H.
    + inversion H; subst; [constructor 2; [tauto|]|constructor 3; [tauto|]]; apply IH; assumption.
    + inversion H; subst; [constructor 2; [tauto|]|constructor 3; [tauto|]]; apply IH; assumption.
    + constructor 3; [intros [? _]; congruence|]. apply IH, H.
    + inversion H; subst; [destruct H2; congruence|]. apply IH; assumption.
Qed.

Lemma number_iff : forall {A} (P Q : A -> Prop) l m, (forall x, In x l -> (P x <-> Q x)) -> number P l m -> number Q l m.
Proof.
  intros A P Q l m E H. induction H as [|x l m Hx H IH|x l m Hx H IH].
  - constructor.
  - constructor 2; [apply E; [left; reflexivity|assumption]|apply IH; intros; apply E; right; assumption].
  - constructor 3; [|apply IH; intros; apply E; right; assumption]. intros C. apply Hx, E; [left; reflexivity|assumption].
Qed.

Lemma number_le : forall {A} (P Q : A -> Prop) l m k, (forall x, In x l -> P x -> Q x) -> number P l m -> number Q l k -> (m <= k)%nat.
Proof.
  intros A P Q l m k E H. revert k. induction H as [|x l m Hx H IH|x l m Hx H IH]; intros k K; inversion K; subst.
  - lia.
  - apply le_n_S, IH; [intros; apply E; [right|]; assumption|assumption].
  - exfalso. apply H2, E; [left; reflexivity|assumption].
  - apply le_S, IH; [intros; apply E; [right|]; assumption|assumption].
  - apply IH; [intros; apply E; [right|]; assumption|assumption].
Qed.

Lemma number_lt : forall {A} (P Q : A -> Prop) l m k x, (forall x, In x l -> P x -> Q x) -> In x l -> ~ P x -> Q x ->
  number P l m -> number Q l k -> (m < k)%nat.
Proof.
  intros A P Q l m k x E I NP QX H. revert k I. induction H as [|y l m Hy H IH|y l m Hy H IH]; intros k I K; inversion K; subst.
  - destruct I.
  - destruct I as [->|I]; [contradiction|]. apply lt_n_S, IH; [intros; apply E; [right|]; assumption|assumption|assumption].
  - exfalso. apply H2, E; [left; reflexivity|assumption].
  - destruct I as [->|I].
    + apply Nat.lt_succ_r. apply (number_le P Q l m n); [intros; apply E; [right|]; assumption|assumption|assumption].
    + apply Nat.lt_lt_succ_r, IH; [intros; apply E; [right|]; assumption|assumption|assumption].
  - destruct I as [->|I]; [contradiction|]. apply IH; [intros; apply E; [right|]; assumption|assumption|assumption].
Qed.

Lemma number_ex : forall {A} (P : A -> Prop) (dec : forall x, P x \/ ~ P x) l, exists m, number P l m.
Proof.
  intros A P dec. induction l as [|x l [m IH]]; [exists 0%nat; constructor|].
  destruct (dec x); [exists (S m); constructor 2|exists m; constructor 3]; assumption.
Qed.

Lemma number_det : forall {A} (P : A -> Prop) l m, number P l m -> forall m', number P l m' -> m = m'.
Proof. intros A P l m H. induction H; intros m' H'; inversion H'; subst; try contradiction; auto. Qed.

Lemma log10_power : forall x, log10 (Rpower 10 x) = x.
Proof. intros x. unfold log10, Rpower. rewrite ln_exp. field. apply Rgt_not_eq, MetalProofs2.ln10. Qed.

Lemma min_eq : forall l lo, In lo l -> (forall x, In x l -> lo <= x) -> MetalModel.min_of l = Some lo.
Proof.
  intros [|x t] lo I L; [destruct I|]. cbn [MetalModel.min_of]. destruct (MetalProofs2.fold_min t x) as [M1 M2]. f_equal.
  apply Rle_antisym; [apply M2, I|apply L, M1].
Qed.

Lemma max_eq : forall l hi, In hi l -> (forall x, In x l -> x <= hi) -> MetalModel.max_of l = Some hi.
Proof.
  intros [|x t] hi I L; [destruct I|]. cbn [MetalModel.max_of]. destruct (MetalProofs2.fold_max t x) as [M1 M2]. f_equal.
  apply Rle_antisym; [apply L, M1|apply M2, I].
Qed.

Definition virial (vel : Z -> R) (halos : list Z) : list R := map vel (filter HaloModel.hist_keeps halos).

Lemma keeps_iff : forall h, HaloModel.hist_keeps h = true <-> hosted h.
Proof. intros h. unfold HaloModel.hist_keeps, hosted. destruct (Z.eqb_spec h (-1)); cbn; split; congruence. Qed.

Lemma in_virial : forall vel halos v, In v (virial vel halos) <-> exists h, In h halos /\ hosted h /\ vel h = v.
Proof.
  intros vel halos v. unfold virial. rewrite in_map_iff. split.
  - intros [h [E I]]. apply filter_In in I. destruct I as [I K]. exists h. rewrite <- keeps_iff. auto.
  - intros [h [I [K E]]]. exists h. split; [exact E|]. apply filter_In. rewrite keeps_iff. auto.
Qed.

Lemma slow_min : forall vel halos lo, slowest vel halos lo -> MetalModel.min_of (virial vel halos) = Some lo.
Proof.
  intros vel halos lo [I L]. apply min_eq; [apply in_virial, I|]. intros x X. apply in_virial in X. destruct X as [h [A [B <-]]]. auto.
Qed.

Lemma fast_max : forall vel halos hi, fastest vel halos hi -> MetalModel.max_of (virial vel halos) = Some hi.
Proof.
  intros vel halos lo [I L]. apply max_eq; [apply in_virial, I|]. intros x X. apply in_virial in X. destruct X as [h [A [B <-]]]. auto.
Qed.

(** Counting logarithms of the hosts' velocities. *)
Lemma number_hosts : forall (Q : R -> Prop) vel halos m,
  number Q (logs (virial vel halos)) m <-> number (fun h => hosted h /\ 0 < vel h /\ Q (lg (vel h))) halos m.
Proof.
  intros Q vel halos m. unfold logs, virial. rewrite number_map, number_filter, number_map, number_filter.
  assert (E : forall h, (HaloModel.hist_keeps h = true /\ (if Rlt_dec 0 (vel h) then true else false) = true /\ Q (log10 (vel h))) <->
    (hosted h /\ 0 < vel h /\ Q (lg (vel h)))).
  { intros h. rewrite keeps_iff. change (log10 (vel h)) with (lg (vel h)). destruct (Rlt_dec 0 (vel h)); intuition congruence. }
  split; apply number_iff; intros x _; [apply E|symmetry; apply E].
Qed.

Lemma within_dec : forall e n i x, within e n i x \/ ~ within e n i x.
Proof. intros e n i x. exact (inside_dec e n i x). Qed.

Lemma mass_unfold : forall vel halos dm lo hi, slowest vel halos lo -> fastest vel halos hi -> 0 < hi ->
  mass_hist vel halos dm =
    let m_table := map (Rpower 10) (arange (log10 (lo + 1 / 10)) (log10 hi) dm) in
    match MetalModel.density (logs (virial vel halos)) (map log10 m_table) with
    | Some pdf => Some (centers m_table, pdf)
    | None => None
    end.
Proof.
  intros vel halos dm lo hi L H P. unfold mass_hist. fold (virial vel halos). rewrite (slow_min _ _ _ L), (fast_max _ _ _ H).
  destruct (Rle_dec hi 0); [lra|]. reflexivity.
Qed.

Section Mass.
Variables (vel : Z -> R) (halos : list Z) (dm lo hi : R).
Hypotheses (D : 0 < dm) (POS : forall h, In h halos -> hosted h -> 0 <= vel h).
Hypotheses (LO : slowest vel halos lo) (HI : fastest vel halos hi) (LT : lo + 1 / 10 < hi).
Let a := lg (lo + 1 / 10).
Let b := lg hi.

Lemma lo_nonneg : 0 <= lo.
Proof. destruct LO as [[h [I [K <-]]] _]. apply POS; assumption. Qed.

Lemma mass_ab : a < b.
Proof. apply MetalProofs2.log_mono; [pose proof lo_nonneg; lra|exact LT]. Qed.

Lemma C112_counts_aux : exists n t,
  a + INR n * dm < b <= a + INR (S n) * dm /\
  number (fun h => hosted h /\ lo + 1 / 10 <= vel h /\ lg (vel h) <= a + INR n * dm) halos t /\
  (n = 0%nat -> mass_hist vel halos dm = Some ([], [])) /\
  (n <> 0%nat -> t = 0%nat -> mass_hist vel halos dm = None) /\
  (n <> 0%nat -> t <> 0%nat -> exists mbin pdf,
     mass_hist vel halos dm = Some (mbin, pdf) /\ length mbin = n /\ length pdf = n /\
     (forall i, (i < n)%nat ->
        nth i mbin 0 = (Rpower 10 (a + INR i * dm) + Rpower 10 (a + INR (S i) * dm)) / 2 /\
        exists m, number (fun h => hosted h /\ 0 < vel h /\ within (spaced a dm) n i (lg (vel h))) halos m /\
          nth i pdf 0 = INR m / dm / INR t) /\
     total (map (fun x => x * dm) pdf) = 1).
Proof.
  destruct (number_bins a b dm D mass_ab) as [n [NB BB]]. set (e := spaced a dm).
  assert (INC : forall i, (i < n)%nat -> e i < e (S i)) by (intros i _; unfold e, spaced; rewrite S_INR; lra).
  assert (DV : forall i, e (S i) - e i = dm) by (intros i; unfold e, spaced; rewrite S_INR; ring).
  set (ls := logs (virial vel halos)).
  destruct (number_ex (fun x => e 0%nat <= x <= e n)) with (l := ls) as [t T].
  { intros x. destruct (Rle_dec (e 0%nat) x), (Rle_dec x (e n)); tauto. }
  pose proof lo_nonneg as LN.
  assert (T' : number (fun h => hosted h /\ lo + 1 / 10 <= vel h /\ lg (vel h) <= a + INR n * dm) halos t).
  { unfold ls in T. rewrite number_hosts in T. revert T. apply number_iff. intros h _.
    assert (A : e 0%nat = a) by (unfold e, spaced; cbn; ring). rewrite A. change (e n) with (a + INR n * dm). split.
    - intros [K [P [Q1 Q2]]]. split; [exact K|]. split; [|exact Q2]. destruct (Rle_lt_dec (lo + 1 / 10) (vel h)) as [|C]; [assumption|].
      apply (MetalProofs2.log_mono _ _ P) in C. unfold a, lg in Q1. lra.
    - intros [K [P Q]]. split; [exact K|]. split; [lra|]. split; [|exact Q]. apply MetalProofs2.log_le; lra. }
  assert (ED : arange (log10 (lo + 1 / 10)) (log10 hi) dm = map e (seq 0 (S n))).
  { unfold arange. change (log10 (lo + 1 / 10)) with a. change (log10 hi) with b. rewrite NB. reflexivity. }
  assert (HP : 0 < hi) by lra.
  assert (U := mass_unfold vel halos dm lo hi LO HI HP). cbv zeta in U. rewrite ED in U.
  rewrite (map_map (Rpower 10) log10) in U. rewrite (map_ext _ (fun x => x) log10_power), map_id in U. fold ls in U.
  rewrite map_map in U. rewrite centers_map in U.
  exists n, t. split; [exact BB|]. split; [exact T'|]. split; [|split].
  - intros ->. rewrite U. reflexivity.
  - intros N Z. rewrite U. destruct n as [|n0]; [contradiction|].
    unfold MetalModel.density. change (map e (seq 0 (S (S n0)))) with (e 0%nat :: e 1%nat :: map e (seq 2 n0)) at 1. cbv iota.
    unfold histogram_density. rewrite (hist_total e (S n0) INC ls t ltac:(lia) T). rewrite Z. cbn [INR].
    destruct (Req_EM_T 0 0); [reflexivity|contradiction].
  - intros N TZ. assert (TP : (0 < t)%nat) by lia.
    exists (map (fun i => (Rpower 10 (e i) + Rpower 10 (e (S i))) / 2) (seq 0 n)),
      (map (fun i => (cum e n ls (S i) - cum e n ls i) / dm / INR t) (seq 0 n)).
    split.
    + rewrite U. destruct n as [|n0]; [contradiction|].
      unfold MetalModel.density. change (map e (seq 0 (S (S n0)))) with (e 0%nat :: e 1%nat :: map e (seq 2 n0)) at 1. cbv iota.
      rewrite (MetalProofs2.hist_density_eq e (S n0) ls dm t INC DV) by first [lia | exact (hist_total e (S n0) INC ls t ltac:(lia) T)]. reflexivity.
    + rewrite !map_length, !seq_length. split; [reflexivity|]. split; [reflexivity|].
      assert (NC : forall i, (i < n)%nat -> exists m, number (inside e n i) ls m /\ cum e n ls (S i) - cum e n ls i = INR m).
      { intros i I. destruct (number_ex (inside e n i) (inside_dec e n i) ls) as [m M]. exists m. split; [exact M|].
        apply (inside_number e n INC); assumption. }
      split.
      * intros i I. split.
        -- set (f := fun i => (Rpower 10 (e i) + Rpower 10 (e (S i))) / 2).
           rewrite (nth_indep _ 0 (f 0%nat)) by (rewrite map_length, seq_length; exact I).
           rewrite (map_nth f), seq_nth by exact I. cbn [plus]. reflexivity.
        -- destruct (NC i I) as [m [M C]]. exists m. split.
           ++ unfold ls in M. apply number_hosts in M. exact M.
           ++ set (f := fun i => (cum e n ls (S i) - cum e n ls i) / dm / INR t).
              rewrite (nth_indep _ 0 (f 0%nat)) by (rewrite map_length, seq_length; exact I).
              rewrite (map_nth f), seq_nth by exact I. cbn [plus]. unfold f. rewrite C. reflexivity.
      * assert (HT := hist_total e n INC ls t ltac:(lia) T). rewrite hist_eq in HT. rewrite map_map.
        assert (TI : 0 < INR t) by (apply lt_0_INR, TP).
        assert (SC := MetalProofs.sum_scal (/ INR t) (fun i => cum e n ls (S i) - cum e n ls i) (seq 0 n)).
        change MetalSpec.sum with total in SC. change rsum with total in HT.
        rewrite HT in SC. rewrite Rinv_l in SC by lra. rewrite <- SC. f_equal.
        apply map_ext. intros i. field. split; lra.
Qed.

(** The slowest hosts and the fastest are in no bin, and so two hosts at least are not counted. *)
Lemma C112_ends_aux : forall n, a + INR n * dm < b ->
  (forall i v, (i < n)%nat -> 0 < v -> v < lo + 1 / 10 \/ v = hi -> ~ within (spaced a dm) n i (lg v)) /\
  exists t mid all,
    number (fun h => hosted h /\ lo + 1 / 10 <= vel h /\ lg (vel h) <= a + INR n * dm) halos t /\
    number (fun h => hosted h /\ lo + 1 / 10 <= vel h) halos mid /\
    number hosted halos all /\ (t < mid)%nat /\ (mid < all)%nat.
Proof.
  intros n N. pose proof lo_nonneg as LN. split.
  - intros i v I P [V|V] [B1 B2].
    + apply (MetalProofs2.log_mono _ _ P) in V. unfold spaced in B1. fold (lg (lo + 1 / 10)) in V. fold a in V. fold (lg v) in V.
      assert (0 <= INR i) by apply pos_INR. nra.
    + subst v. fold b in B1, B2. unfold spaced in B1, B2. destruct B2 as [B2|[_ B2]]; [|lra]. assert (INR (S i) <= INR n) by (apply le_INR; lia). nra.
  - destruct (number_ex (fun h => hosted h /\ lo + 1 / 10 <= vel h /\ lg (vel h) <= a + INR n * dm)) with (l := halos) as [t T].
    { intros h. unfold hosted. destruct (Z.eq_dec h (-1)), (Rle_dec (lo + 1 / 10) (vel h)), (Rle_dec (lg (vel h)) (a + INR n * dm)); tauto. }
    destruct (number_ex (fun h => hosted h /\ lo + 1 / 10 <= vel h)) with (l := halos) as [k K].
    { intros h. unfold hosted. destruct (Z.eq_dec h (-1)), (Rle_dec (lo + 1 / 10) (vel h)); tauto. }
    destruct (number_ex hosted) with (l := halos) as [m M].
    { intros h. unfold hosted. destruct (Z.eq_dec h (-1)); tauto. }
    exists t, k, m. split; [exact T|]. split; [exact K|]. split; [exact M|]. split.
    + destruct HI as [[h [I [HH E]]] _]. refine (number_lt _ _ halos t k h _ I _ _ T K).
      * intros x _. tauto.
      * intros [_ [_ C]]. rewrite E in C. fold b in C. lra.
      * split; [exact HH|]. lra.
    + destruct LO as [[h [I [HH E]]] _]. refine (number_lt _ _ halos k m h _ I _ HH K M).
      * intros x _. tauto.
      * intros [_ C]. lra.
Qed.
End Mass.

Lemma arange_short : forall a b d, 0 < d -> b <= a -> arange a b d = [].
Proof.
  intros a b d D L. unfold arange. assert (Z : (Zceil ((b - a) / d) <= 0)%Z).
  { apply Zceil_glb. unfold Rdiv. assert (0 < / d) by (apply Rinv_0_lt_compat, D). nra. }
  replace (Z.to_nat (Zceil ((b - a) / d))) with 0%nat by lia. reflexivity.
Qed.

Lemma C112_close_aux : forall vel halos dm lo hi, 0 < dm -> slowest vel halos lo -> fastest vel halos hi -> 0 < hi -> hi <= lo + 1 / 10 ->
  mass_hist vel halos dm = Some ([], []).
Proof.
  intros vel halos dm lo hi D L H P C. rewrite (mass_unfold vel halos dm lo hi L H P). cbv zeta.
  rewrite arange_short; [reflexivity|exact D|]. apply MetalProofs2.log_le; assumption.
Qed.

Lemma C112_none_aux : forall vel halos dm, (forall h, In h halos -> ~ hosted h) -> mass_hist vel halos dm = None.
Proof.
  intros vel halos dm N. unfold mass_hist. fold (virial vel halos). assert (E : virial vel halos = []).
  { destruct (virial vel halos) as [|v l] eqn:E; [reflexivity|]. exfalso. assert (I : In v (virial vel halos)) by (rewrite E; left; reflexivity).
    apply in_virial in I. destruct I as [h [I [K _]]]. exact (N h I K). }
  rewrite E. reflexivity.
Qed.
