(** Proofs about the breakdown by host, the stellar mass function and the mean temperatures (C113, C114, C115). *)
From Coq Require Import ZArith List Bool Reals Lra Lia Arith.
From Flocq Require Import Core.Raux.
From Verif Require Import AbsorptionSpec AbsorptionProofs FluxModel FluxSpec FluxProofs FluxProofs2 FluxProofs3 CddfModel CddfProofs.
From Verif Require MetalModel MetalSpec MetalProofs MetalProofs2 HaloModel.
From Verif Require Import HostsModel HostsSpec HostsProofs.
Import ListNotations.
Local Open Scope R_scope.

Lemma counts_eq : forall (e : nat -> R) n l, counts l (map e (seq 0 (S n))) = map (fun i => cum e n l (S i) - cum e n l i) (seq 0 n).
Proof.
  intros e n l. rewrite <- (hist_eq e n l). destruct n as [|n]; [|reflexivity].
  unfold counts. cbn [seq map]. reflexivity.
Qed.

Lemma power_lg : forall x, 0 < x -> Rpower 10 (lg x) = x.
Proof.
  intros x X. unfold Rpower, lg. replace (ln x / ln 10 * ln 10) with (ln x); [apply exp_ln, X|].
  field. apply Rgt_not_eq, MetalProofs2.ln10.
Qed.

Lemma power_le : forall s t, Rpower 10 s <= Rpower 10 t <-> s <= t.
Proof.
  intros s t. split; intros H.
  - destruct (Rle_lt_dec s t) as [|C]; [assumption|]. apply (Rpower_lt 10) in C; lra.
  - destruct H as [H| ->]; [|lra]. left. apply Rpower_lt; lra.
Qed.

Lemma power_lt : forall s t, Rpower 10 s < Rpower 10 t <-> s < t.
Proof.
  intros s t. split; intros H.
  - destruct (Rle_lt_dec t s) as [C|]; [|assumption]. apply power_le in C. lra.
  - apply Rpower_lt; lra.
Qed.

Definition good (log : bool) (x : R) : Prop := log = true -> 0 < x.

Lemma un_scale : forall log x, good log x -> unscale log (scale log x) = x.
Proof. intros [] x G; [apply power_lg, G; reflexivity|reflexivity]. Qed.

Lemma un_le : forall log s t, unscale log s <= unscale log t <-> s <= t.
Proof. intros [] s t; [apply power_le|reflexivity]. Qed.
Lemma un_lt : forall log s t, unscale log s < unscale log t <-> s < t.
Proof. intros [] s t; [apply power_lt|reflexivity]. Qed.
Lemma un_eq : forall log s t, unscale log s = unscale log t <-> s = t.
Proof.
  intros log s t. split; [|intros ->; reflexivity]. intros E. apply Rle_antisym; apply (un_le log); rewrite E; apply Rle_refl.
Qed.

Lemma scale_lt : forall log x y, good log x -> x < y -> scale log x < scale log y.
Proof. intros [] x y G L; [apply MetalProofs2.log_mono; [apply G; reflexivity|exact L]|exact L]. Qed.
Lemma scale_le : forall log x y, good log x -> x <= y -> scale log x <= scale log y.
Proof. intros [] x y G L; [apply MetalProofs2.log_le; [apply G; reflexivity|exact L]|exact L]. Qed.

Lemma inside_scale : forall log s n i x, good log x ->
  (inside (fun i => unscale log (s i)) n i x <-> within s n i (scale log x)).
Proof.
  intros log s n i x G. unfold inside, within. rewrite <- (un_scale log x G) at 1 2 3.
  rewrite un_le, un_lt, un_eq. reflexivity.
Qed.

Definition all_good (log : bool) (absorbers : list (R * Z)) : Prop := forall x h, In (x, h) absorbers -> good log x.

Definition chosen (vel : Z -> R) (r : R * R) (p : R * Z) : Prop := (0 < snd p)%Z /\ between vel r (snd p).

Definition row_of (vel : Z -> R) (absorbers : list (R * Z)) (r : R * R) : list (R * Z) :=
  filter (fun a => (if Rlt_dec (fst r) (vel (snd a)) then true else false) &&
                   (if Rlt_dec (vel (snd a)) (snd r) then true else false)) (filter (fun a => HaloModel.plot_keeps (snd a)) absorbers).

Lemma number_row : forall (Q : R -> Prop) vel absorbers r m,
  number Q (map fst (row_of vel absorbers r)) m <-> number (fun p => Q (fst p) /\ chosen vel r p) absorbers m.
Proof.
  intros Q vel absorbers r m. unfold row_of. rewrite number_map, !number_filter.
  assert (E : forall p, (HaloModel.plot_keeps (snd p) = true /\
     ((if Rlt_dec (fst r) (vel (snd p)) then true else false) && (if Rlt_dec (vel (snd p)) (snd r) then true else false)) = true /\ Q (fst p)) <->
     (Q (fst p) /\ chosen vel r p)).
  { intros p. unfold chosen, between, HaloModel.plot_keeps. rewrite Z.ltb_lt, andb_true_iff.
    destruct (Rlt_dec (fst r) (vel (snd p))), (Rlt_dec (vel (snd p)) (snd r)); intuition congruence. }
  split; apply number_iff; intros x _; [apply E|symmetry; apply E].
Qed.

Lemma breakdown_unfold : forall vel log dv absorbers ranges lo hi, all_good log absorbers -> lowest absorbers lo -> highest absorbers hi ->
  (length ranges <= 3)%nat ->
  plot_breakdown vel log dv absorbers ranges =
    let v_table := map (unscale log) (arange (scale log lo) (scale log hi) dv) in
    Some (centers v_table,
      map (fun r => map (fun p => fst p / (1 * snd p)) (combine (counts (map fst (row_of vel absorbers r)) v_table)
        (map (fun c => if Req_EM_T c 0 then 1 else c) (counts (map fst absorbers) v_table)))) ranges).
Proof.
  intros vel log dv absorbers ranges lo hi G L H N. unfold plot_breakdown.
  assert (GE : log && existsb (fun x => if Rle_dec x 0 then true else false) (map fst absorbers) = false).
  { destruct log; [|reflexivity]. cbn [andb]. destruct (existsb _ _) eqn:E; [|reflexivity]. exfalso. apply existsb_exists in E.
    destruct E as [x [I X]]. apply in_map_iff in I. destruct I as [[y h] [E I]]. cbn in E. subst y. specialize (G x h I eq_refl).
    destruct (Rle_dec x 0); [lra|discriminate]. }
  rewrite GE.
  assert (SC : (if log then map log10 (map fst absorbers) else map fst absorbers) = map (scale log) (map fst absorbers)).
  { destruct log; [reflexivity|]. unfold scale. rewrite map_id. reflexivity. }
  rewrite SC.
  assert (MI : MetalModel.min_of (map (scale log) (map fst absorbers)) = Some (scale log lo)).
  { destruct L as [[h I] L]. apply min_eq.
    - apply in_map, in_map_iff. exists (lo, h). auto.
    - intros x X. apply in_map_iff in X. destruct X as [y [<- Y]]. apply in_map_iff in Y. destruct Y as [[z k] [E Y]]. cbn in E. subst z.
      apply scale_le; [exact (G lo h I)|exact (L y k Y)]. }
  assert (MA : MetalModel.max_of (map (scale log) (map fst absorbers)) = Some (scale log hi)).
  { destruct H as [[h I] H]. apply max_eq.
    - apply in_map, in_map_iff. exists (hi, h). auto.
    - intros x X. apply in_map_iff in X. destruct X as [y [<- Y]]. apply in_map_iff in Y. destruct Y as [[z k] [E Y]]. cbn in E. subst z.
      apply scale_le; [exact (G y k Y)|exact (H y k Y)]. }
  rewrite MI, MA. destruct (Nat.ltb_spec 3 (length ranges)) as [C|_]; [lia|]. cbv zeta.
  assert (VT : (if log then map (Rpower 10) (arange (scale log lo) (scale log hi) dv) else arange (scale log lo) (scale log hi) dv) =
    map (unscale log) (arange (scale log lo) (scale log hi) dv)).
  { destruct log; [reflexivity|]. unfold unscale. rewrite map_id. reflexivity. }
  rewrite VT. reflexivity.
Qed.

(** Entry of a histogram as a number of absorbers. *)
Lemma nth_map_seq : forall (f : nat -> R) n i, (i < n)%nat -> nth i (map f (seq 0 n)) 0 = f i.
Proof.
  intros f n i I. rewrite (nth_indep _ 0 (f 0%nat)) by (rewrite map_length, seq_length; exact I).
  rewrite (map_nth f), seq_nth by exact I. reflexivity.
Qed.

Lemma C113_fractions_aux : forall vel log dv absorbers ranges lo hi, 0 < dv -> all_good log absorbers -> lowest absorbers lo -> highest absorbers hi ->
  lo < hi -> (length ranges <= 3)%nat ->
  let a := scale log lo in
  exists n vbin rows,
    a + INR n * dv < scale log hi <= a + INR (S n) * dv /\
    plot_breakdown vel log dv absorbers ranges = Some (vbin, rows) /\ length vbin = n /\ length rows = length ranges /\
    (forall i, (i < n)%nat -> nth i vbin 0 = (unscale log (spaced a dv i) + unscale log (spaced a dv (S i))) / 2) /\
    forall k, (k < length ranges)%nat -> length (nth k rows []) = n /\
      forall i, (i < n)%nat -> exists m mk,
        number (fun p => within (spaced a dv) n i (scale log (fst p))) absorbers m /\
        number (fun p => within (spaced a dv) n i (scale log (fst p)) /\ (0 < snd p)%Z /\ between vel (nth k ranges (0, 0)) (snd p)) absorbers mk /\
        nth i (nth k rows []) 0 = (if Nat.eqb m 0 then 0 else INR mk / INR m).
Proof.
  intros vel log dv absorbers ranges lo hi D G L H LT N a.
  assert (AB : a < scale log hi). { destruct L as [[h I] _]. apply scale_lt; [exact (G lo h I)|exact LT]. }
  destruct (number_bins a (scale log hi) dv D AB) as [n [NB BB]].
  rewrite (breakdown_unfold vel log dv absorbers ranges lo hi G L H N). cbv zeta.
  assert (ED : arange (scale log lo) (scale log hi) dv = map (spaced a dv) (seq 0 (S n))).
  { unfold arange. fold a. rewrite NB. reflexivity. }
  rewrite ED, map_map. set (e := fun i => unscale log (spaced a dv i)).
  assert (INC : forall i, (i < n)%nat -> e i < e (S i)).
  { intros i _. unfold e. apply un_lt. unfold spaced. rewrite S_INR. lra. }
  rewrite centers_map.
  exists n. eexists. eexists. split; [exact BB|]. split; [reflexivity|]. rewrite !map_length, seq_length. split; [reflexivity|].
  split; [reflexivity|]. split.
  { intros i I. rewrite (nth_map_seq (fun i => (e i + e (S i)) / 2)) by exact I. reflexivity. }
  intros k K.
  set (row := fun r => map (fun p : R * R => fst p / (1 * snd p)) (combine (counts (map fst (row_of vel absorbers r)) (map e (seq 0 (S n))))
        (map (fun c => if Req_EM_T c 0 then 1 else c) (counts (map fst absorbers) (map e (seq 0 (S n))))))).
  assert (RK : nth k (map row ranges) [] = row (nth k ranges (0, 0))).
  { rewrite (nth_indep _ [] (row (0, 0))) by (rewrite map_length; exact K). apply map_nth. }
  rewrite RK. unfold row. rewrite !counts_eq.
  set (lr := map fst (row_of vel absorbers (nth k ranges (0, 0)))). set (la := map fst absorbers).
  rewrite (map_map (fun i => cum e n la (S i) - cum e n la i)), combine_maps, map_map. cbn [fst snd].
  split; [rewrite map_length, seq_length; reflexivity|]. intros i I.
  destruct (number_ex (inside e n i) (inside_dec e n i) la) as [m M].
  destruct (number_ex (inside e n i) (inside_dec e n i) lr) as [mk MK].
  exists m, mk. split; [|split].
  - unfold la in M. rewrite number_map in M. revert M. apply number_iff. intros [x h] P. cbn [fst]. apply inside_scale. exact (G x h P).
  - unfold lr in MK. rewrite number_row in MK. revert MK. apply number_iff. intros [x h] P. cbn [fst snd]. unfold chosen. cbn [snd].
    unfold e. rewrite (inside_scale log (spaced a dv) n i x (G x h P)). reflexivity.
  - set (f := fun i => (cum e n lr (S i) - cum e n lr i) /
      (1 * (if Req_EM_T (cum e n la (S i) - cum e n la i) 0 then 1 else cum e n la (S i) - cum e n la i))).
    rewrite (nth_map_seq f) by exact I. unfold f.
    rewrite (inside_number e n INC i la m I M), (inside_number e n INC i lr mk I MK).
    destruct (Nat.eqb_spec m 0) as [Z|Z].
    + subst m. cbn [INR]. destruct (Req_EM_T 0 0); [|contradiction].
      assert (mk = 0%nat).
      { unfold lr in MK. rewrite number_row in MK. unfold la in M. rewrite number_map in M.
        apply (number_le _ _ _ _ _ (fun x _ (C : inside e n i (fst x) /\ _) => proj1 C) MK) in M. lia. }
      subst mk. cbn [INR]. field.
    + destruct (Req_EM_T (INR m) 0) as [C|_]; [apply INR_eq with (m := 0%nat) in C; contradiction|]. field. apply not_0_INR, Z.
Qed.

(** ** Ranges which do not overlap *)

Lemma number_or : forall {A} (P Q : A -> Prop) l a b, (forall x, P x -> ~ Q x) -> number P l a -> number Q l b ->
  number (fun x => P x \/ Q x) l (a + b).
Proof.
  intros A P Q l a b DJ H. revert b. induction H as [|x l a Hx H IH|x l a Hx H IH]; intros b K; inversion K; subst.
  - constructor.
  - exfalso. exact (DJ x Hx H2).
  - cbn [plus]. constructor 2; [left; assumption|apply IH; assumption].
  - rewrite Nat.add_succ_r. constructor 2; [right; assumption|apply IH; assumption].
  - constructor 3; [tauto|apply IH; assumption].
Qed.

Lemma number_union : forall {A} (P : nat -> A -> Prop) l (c : nat -> nat) k, (forall i j x, (i < j < k)%nat -> P i x -> ~ P j x) ->
  (forall i, (i < k)%nat -> number (P i) l (c i)) ->
  number (fun x => exists i, (i < k)%nat /\ P i x) l (fold_right plus 0%nat (map c (seq 0 k))).
Proof.
  intros A P l c k. induction k as [|k IH]; intros DJ C.
  - cbn. clear. induction l as [|x l IH]; [constructor|]. constructor 3; [|exact IH]. intros [i [I _]]. lia.
  - assert (E : fold_right plus 0%nat (map c (seq 0 (S k))) = (fold_right plus 0%nat (map c (seq 0 k)) + c k)%nat).
    { rewrite seq_S, map_app. cbn [plus map]. generalize (map c (seq 0 k)). intros q. induction q as [|y q IQ]; cbn; [lia|]. rewrite IQ. lia. }
    rewrite E. assert (U : number (fun x => (exists i, (i < k)%nat /\ P i x) \/ P k x) l (fold_right plus 0%nat (map c (seq 0 k)) + c k)).
    { apply number_or.
      - intros x [i [I X]]. apply (DJ i k x); [lia|exact X].
      - apply IH; [intros i j x I; apply DJ; lia|]. intros i I. apply C. lia.
      - apply C. lia. }
    revert U. apply number_iff. intros x _. split.
    + intros [[i [I X]]|X]; [exists i|exists k]; (split; [lia|exact X]).
    + intros [i [I X]]. destruct (Nat.eq_dec i k) as [->|NE]; [right; exact X|]. left. exists i. split; [lia|exact X].
Qed.

Lemma pick : forall (Q : nat -> nat -> Prop) k, (forall i, (i < k)%nat -> exists m, Q i m) -> exists c : nat -> nat, forall i, (i < k)%nat -> Q i (c i).
Proof.
  intros Q. induction k as [|k IH]; intros H; [exists (fun _ => 0%nat); intros; lia|].
  destruct IH as [c C]; [intros; apply H; lia|]. destruct (H k ltac:(lia)) as [m M]. exists (fun i => if Nat.eqb i k then m else c i).
  intros i I. destruct (Nat.eqb_spec i k) as [->|NE]; [exact M|]. apply C. lia.
Qed.

Lemma total_counts : forall (c : nat -> nat) m l, total (map (fun k => INR (c k) / m) l) = INR (fold_right plus 0%nat (map c l)) / m.
Proof.
  intros c m. unfold total. induction l as [|x l IH]; cbn [map fold_right]; [cbn; unfold Rdiv; ring|]. rewrite IH, plus_INR. unfold Rdiv. ring.
Qed.

Lemma map_nth_seq : forall {A} (f : A -> R) d l, map f l = map (fun k => f (nth k l d)) (seq 0 (length l)).
Proof.
  intros A f d. induction l as [|x l IH]; [reflexivity|]. cbn [length seq map nth]. f_equal. rewrite <- seq_shift, map_map. exact IH.
Qed.

Lemma C113_sum_aux : forall vel log dv absorbers ranges lo hi vbin rows, 0 < dv -> all_good log absorbers -> lowest absorbers lo -> highest absorbers hi ->
  lo < hi -> (length ranges <= 3)%nat -> plot_breakdown vel log dv absorbers ranges = Some (vbin, rows) ->
  (forall k i, (k < length ranges)%nat -> (i < length vbin)%nat -> 0 <= nth i (nth k rows []) 0 <= 1) /\
  (disjoint ranges -> forall i, (i < length vbin)%nat -> total (map (fun row => nth i row 0) rows) <= 1).
Proof.
  intros vel log dv absorbers ranges lo hi vbin rows D G L H LT N PB.
  destruct (C113_fractions_aux vel log dv absorbers ranges lo hi D G L H LT N) as [n [vb [rw [_ [E [LV [LR [_ F]]]]]]]].
  rewrite PB in E. injection E as <- <-. rewrite LV. set (a := scale log lo) in F. split.
  - intros k i K I. destruct (F k K) as [_ FI]. destruct (FI i I) as [m [mk [M [MK ->]]]]. destruct (Nat.eqb_spec m 0) as [Zm|Zm]; [lra|].
    assert (MM : (mk <= m)%nat).
    { refine (number_le _ _ _ _ _ _ MK M). intros x _ C. exact (proj1 C). }
    apply le_INR in MM. assert (P : 0 < INR m) by (apply lt_0_INR; lia). assert (0 <= INR mk) by apply pos_INR. split.
    + apply Rmult_le_pos; [assumption|]. left. apply Rinv_0_lt_compat, P.
    + apply (Rmult_le_reg_r (INR m)); [exact P|]. unfold Rdiv. rewrite Rmult_assoc, Rinv_l by lra. lra.
  - intros DJ i I. destruct (number_ex (fun p : R * Z => within (spaced a dv) n i (scale log (fst p)))) with (l := absorbers) as [m M].
    { intros x. apply within_dec. }
    destruct (pick (fun k c => number (fun p : R * Z => within (spaced a dv) n i (scale log (fst p)) /\ (0 < snd p)%Z /\ between vel (nth k ranges (0, 0)) (snd p)) absorbers c
       /\ nth i (nth k rows []) 0 = (if Nat.eqb m 0 then 0 else INR c / INR m)) (length ranges)) as [c C].
    { intros k K. destruct (F k K) as [_ FI]. destruct (FI i I) as [m' [mk [M' [MK E]]]]. assert (m' = m) by exact (number_det _ _ _ M' _ M). subst m'.
      exists mk. split; [exact MK|exact E]. }
    rewrite (map_nth_seq (fun row => nth i row 0) [] rows), LR.
    rewrite (map_ext_in _ (fun k => if Nat.eqb m 0 then 0 else INR (c k) / INR m)).
    2: { intros k K. apply in_seq in K. apply C. lia. }
    destruct (Nat.eqb_spec m 0) as [Zm|Zm].
    { assert (TZ : forall l : list nat, total (map (fun _ => 0) l) = 0) by (intros l; unfold total; induction l as [|y l IH]; cbn; [reflexivity|rewrite IH; ring]).
      rewrite TZ. lra. }
    rewrite total_counts.
    assert (U := number_union (fun k (p : R * Z) => within (spaced a dv) n i (scale log (fst p)) /\ (0 < snd p)%Z /\ between vel (nth k ranges (0, 0)) (snd p))
      absorbers c (length ranges)).
    assert (W : (fold_right plus 0%nat (map c (seq 0 (length ranges))) <= m)%nat).
    { assert (U' : number (fun p : R * Z => exists k, (k < length ranges)%nat /\ within (spaced a dv) n i (scale log (fst p)) /\ (0 < snd p)%Z /\
        between vel (nth k ranges (0, 0)) (snd p)) absorbers (fold_right plus 0%nat (map c (seq 0 (length ranges))))).
      2: { refine (number_le _ _ _ _ _ _ U' M). intros x _ [j [_ X]]. exact (proj1 X). }
      apply U.
      - intros j k [x h] JK [_ [_ X]] [_ [_ Y]]. cbn [snd] in X, Y. exact (DJ j k (vel h) JK X Y).
      - intros k K. apply C, K. }
    apply le_INR in W. assert (P : 0 < INR m) by (apply lt_0_INR; lia).
    apply (Rmult_le_reg_r (INR m)); [exact P|]. unfold Rdiv. rewrite Rmult_assoc, Rinv_l by lra. lra.
Qed.

(** The absorbers of the first halo, and the largest absorber, are never counted. *)
Lemma C113_first_aux : forall vel log dv absorbers ranges lo hi vbin rows, 0 < dv -> all_good log absorbers -> lowest absorbers lo -> highest absorbers hi ->
  lo < hi -> (length ranges <= 3)%nat -> plot_breakdown vel log dv absorbers ranges = Some (vbin, rows) ->
  (forall x h, In (x, h) absorbers -> (h <= 0)%Z) ->
  forall k i, (k < length ranges)%nat -> (i < length vbin)%nat -> nth i (nth k rows []) 0 = 0.
Proof.
  intros vel log dv absorbers ranges lo hi vbin rows D G L H LT N PB HZ k i K I.
  destruct (C113_fractions_aux vel log dv absorbers ranges lo hi D G L H LT N) as [n [vb [rw [_ [E [LV [LR [_ F]]]]]]]].
  rewrite PB in E. injection E as <- <-. rewrite LV in I. destruct (F k K) as [_ FI]. destruct (FI i I) as [m [mk [M [MK ->]]]].
  destruct (Nat.eqb m 0); [reflexivity|]. assert (Z : mk = 0%nat).
  { clear - MK HZ. induction MK as [|[x h] l q P MK IH|[x h] l q P MK IH]; [reflexivity| |].
    - exfalso. destruct P as [_ [P _]]. cbn in P. specialize (HZ x h (or_introl eq_refl)). lia.
    - apply IH. intros y g Y. apply (HZ y g). right. exact Y. }
  rewrite Z. cbn. unfold Rdiv. ring.
Qed.

Lemma C113_largest_aux : forall (a dv b : R) n i, 0 < dv -> a + INR n * dv < b -> (i < n)%nat -> ~ within (spaced a dv) n i b.
Proof.
  intros a dv b n i D B I [_ [C|[_ C]]]; unfold spaced in C; [|lra]. assert (INR (S i) <= INR n) by (apply le_INR; lia). nra.
Qed.

(** ** The stellar mass function *)

Lemma bin_log : forall i, lg (Rpower 10 (6 + INR i * (6 / 49))) = 6 + INR i * (6 / 49).
Proof. intros i. exact (log10_power _). Qed.

Lemma C114_counts_aux : forall raw, (forall m, In m raw -> 0 <= m) -> exists sm gsmf, get_stellar_mass_function raw = (sm, gsmf) /\
  length sm = 49%nat /\ length gsmf = 49%nat /\
  forall i, (i < 49)%nat ->
    nth i sm 0 = (Rpower 10 (6 + INR i * (6 / 49)) + Rpower 10 (6 + INR (S i) * (6 / 49))) / 2 /\
    exists m, number (fun x => within (fun i => Rpower 10 (6 + INR i * (6 / 49))) 49 i (x * 10 ^ 10 / (7 / 10))) raw m /\
      nth i gsmf 0 * (6 / 49) * (25 / (7 / 10)) ^ 3 = INR m.
Proof.
  intros raw P. unfold get_stellar_mass_function. set (e := fun i => Rpower 10 (6 + INR i * (6 / 49))).
  assert (INC : forall i, (i < 49)%nat -> e i < e (S i)).
  { intros i _. unfold e. apply power_lt. rewrite S_INR. lra. }
  assert (DL : log10 (nth 1 (map e (seq 0 50)) 0) - log10 (nth 0 (map e (seq 0 50)) 0) = 6 / 49).
  { rewrite !nth_map_seq by lia. unfold e. rewrite !log10_power. cbn [INR]. field. }
  cbv zeta. rewrite DL. change 50%nat with (S 49). rewrite centers_map, hist_eq, map_map.
  eexists. eexists. split; [reflexivity|]. rewrite !map_length, !seq_length. split; [reflexivity|]. split; [reflexivity|].
  intros i I. split.
  - rewrite (nth_map_seq (fun i => (e i + e (S i)) / 2)) by exact I. reflexivity.
  - set (st := map (fun m => m * 10 ^ 10 / (7 / 10)) raw). destruct (number_ex (inside e 49 i) (inside_dec e 49 i) st) as [m M]. exists m. split.
    + unfold st in M. rewrite number_map in M. exact M.
    + set (f := fun i => (cum e 49 st (S i) - cum e 49 st i) / (25 / (7 / 10)) ^ 3 / (6 / 49)). rewrite (nth_map_seq f) by exact I. unfold f.
      rewrite (inside_number e 49 INC i st m I M). field.
Qed.

(** ** Mean temperatures *)

Lemma dense_sum : forall pix p, picked pix p -> rsum (dense (map snd pix)) = weight p /\
  rsum (map (fun q => fst q * snd q) (combine (map fst pix) (dense (map snd pix)))) = total (map (fun q => fst q * snd q) p).
Proof.
  intros pix p H. unfold weight, total, rsum. induction H as [|t d l l' D H [I1 I2]|t d l l' D H [I1 I2]].
  - split; reflexivity.
  - unfold dense in *. cbn [map combine fold_right fst snd]. destruct (Rlt_dec d (/ 10 ^ 6)) as [C|_]; [lra|]. rewrite I1, I2. split; reflexivity.
  - unfold dense in *. cbn [map combine fold_right fst snd]. destruct (Rlt_dec d (/ 10 ^ 6)) as [_|C]; [|lra]. rewrite I1, I2. split; ring.
Qed.

Lemma picked_ex : forall pix, exists p, picked pix p.
Proof.
  induction pix as [|[t d] l [p IH]]; [exists []; constructor|]. destruct (Rle_lt_dec (/ 10 ^ 6) d); [exists ((t, d) :: p); constructor 2|exists p; constructor 3]; assumption.
Qed.

Lemma picked_dense : forall pix p, picked pix p -> forall t d, In (t, d) p -> / 10 ^ 6 <= d /\ In (t, d) pix.
Proof.
  intros pix p H. induction H as [|t d l l' D H IH|t d l l' D H IH]; intros t' d' I; [destruct I| |].
  - destruct I as [E|I]; [injection E as <- <-; split; [exact D|left; reflexivity]|]. destruct (IH _ _ I). split; [assumption|right; assumption].
  - destruct (IH _ _ I). split; [assumption|right; assumption].
Qed.

Lemma small_pos : 0 < / 10 ^ 6.
Proof. apply Rinv_0_lt_compat, pow_lt. lra. Qed.

Lemma weight_pos : forall p, p <> [] -> (forall t d, In (t, d) p -> / 10 ^ 6 <= d) -> 0 < weight p.
Proof.
  pose proof small_pos as SP. intros p. unfold weight, total. induction p as [|[t d] p IH]; intros NE H; [congruence|]. cbn [map fold_right snd].
  assert (D := H t d (or_introl eq_refl)). destruct p as [|q p]; [cbn; lra|].
  assert (0 < fold_right Rplus 0 (map snd (q :: p))) by (apply IH; [discriminate|]; intros; eapply H; right; eassumption). lra.
Qed.

Lemma C115_points_aux : forall sightlines, drawn sightlines (plot_temp (map (map fst) sightlines) (map (map snd) sightlines)).
Proof.
  induction sightlines as [|s l IH]; [constructor|]. unfold plot_temp. cbn [map combine flat_map fst snd].
  fold (plot_temp (map (map fst) l) (map (map snd) l)). destruct (picked_ex s) as [p P]. destruct (dense_sum s p P) as [E1 E2]. rewrite E1, E2.
  destruct p as [|q p'] eqn:EP.
  - change (weight []) with 0. destruct (Req_EM_T 0 0); [|contradiction]. apply drawn_empty; [exact P|exact IH].
  - rewrite <- EP in *. assert (NE : p <> []) by (rewrite EP; discriminate).
    assert (W : 0 < weight p) by (apply weight_pos; [exact NE|]; intros t d I; apply (picked_dense s p P t d I)).
    destruct (Req_EM_T (weight p) 0) as [C|_]; [lra|]. fold (warmth p). destruct (Rlt_dec (warmth p) (10 ^ 5)) as [T|T].
    + apply drawn_point; assumption.
    + apply drawn_hot with (p := p); [exact P|exact NE|lra|exact IH].
Qed.

Lemma drawn_det : forall s pts, drawn s pts -> forall pts', drawn s pts' -> pts = pts'.
Proof.
  assert (PD : forall s p, picked s p -> forall p', picked s p' -> p = p').
  { intros s p H. induction H; intros p' H'; inversion H'; subst; try (f_equal; auto); try lra; auto. }
  intros s pts H. induction H as [|s l pts P H IH|s p l pts P NE W H IH|s p l pts P NE W H IH]; intros pts' H'; inversion H'; subst; auto;
    match goal with A : picked ?x ?a, B : picked ?x ?b |- _ => assert (E := PD _ _ A _ B); subst end; try congruence; try lra; f_equal; auto.
Qed.

Lemma C115_mean_aux : forall s p lo hi, picked s p -> p <> [] -> (forall t d, In (t, d) s -> / 10 ^ 6 <= d -> lo <= t <= hi) -> lo <= warmth p <= hi.
Proof.
  intros s p lo hi P NE B. assert (B' : forall t d, In (t, d) p -> / 10 ^ 6 <= d /\ lo <= t <= hi).
  { intros t d I. destruct (picked_dense s p P t d I) as [D J]. split; [exact D|exact (B t d J D)]. }
  assert (W : 0 < weight p) by (apply weight_pos; [exact NE|]; intros t d I; apply (B' t d I)).
  assert (G : lo * weight p <= total (map (fun q => fst q * snd q) p) <= hi * weight p).
  { clear W NE P. pose proof small_pos as SP. unfold weight, total. induction p as [|[t d] p IH]; [cbn; lra|]. cbn [map fold_right fst snd].
    destruct (B' t d (or_introl eq_refl)) as [D T]. destruct IH as [I1 I2]; [intros; apply B'; right; assumption|]. nra. }
  unfold warmth. split; apply (Rmult_le_reg_r (weight p)); try exact W; unfold Rdiv; rewrite Rmult_assoc, Rinv_l by lra; lra.
Qed.

(** ** Errors, and the hard-coded volume *)

Lemma C113_errors_aux : forall vel log dv absorbers ranges,
  absorbers = [] \/ (log = true /\ exists x h, In (x, h) absorbers /\ x <= 0) \/ (3 < length ranges)%nat ->
  plot_breakdown vel log dv absorbers ranges = None.
Proof.
  intros vel log dv absorbers ranges [->|[[-> [x [h [I X]]]]|N]].
  - unfold plot_breakdown. destruct log; reflexivity.
  - unfold plot_breakdown. cbn [andb]. destruct (existsb _ _) eqn:E; [reflexivity|]. exfalso.
    assert (T : existsb (fun x => if Rle_dec x 0 then true else false) (map fst absorbers) = true).
    { apply existsb_exists. exists x. split; [apply in_map_iff; exists (x, h); auto|]. destruct (Rle_dec x 0); [reflexivity|contradiction]. }
    congruence.
  - unfold plot_breakdown. destruct (log && _); [reflexivity|]. cbv zeta.
    destruct (MetalModel.min_of _); [|reflexivity]. destruct (MetalModel.max_of _); [|reflexivity].
    destruct (Nat.ltb_spec 3 (length ranges)); [reflexivity|lia].
Qed.

Lemma C113_same_aux : forall vel log dv absorbers ranges x, absorbers <> [] -> (forall y h, In (y, h) absorbers -> y = x) -> (log = true -> 0 < x) ->
  0 < dv -> (length ranges <= 3)%nat ->
  plot_breakdown vel log dv absorbers ranges = Some ([], map (fun _ => []) ranges).
Proof.
  intros vel log dv absorbers ranges x NE S G D N.
  assert (EX : exists h, In (x, h) absorbers).
  { destruct absorbers as [|[y h] l]; [congruence|]. exists h. left. rewrite (S y h (or_introl eq_refl)). reflexivity. }
  rewrite (breakdown_unfold vel log dv absorbers ranges x x).
  - cbv zeta. rewrite arange_short by (try exact D; apply Rle_refl). reflexivity.
  - intros y h I. rewrite (S y h I). exact G.
  - split; [exact EX|]. intros y h I. rewrite (S y h I). apply Rle_refl.
  - split; [exact EX|]. intros y h I. rewrite (S y h I). apply Rle_refl.
  - exact N.
Qed.

Lemma C114_volume_aux : forall V,
  (forall raw i m, (forall x, In x raw -> 0 <= x) -> (i < 49)%nat ->
     number (fun x => within (fun i => Rpower 10 (6 + INR i * (6 / 49))) 49 i (x * 10 ^ 10 / (7 / 10))) raw m ->
     nth i (snd (get_stellar_mass_function raw)) 0 * (6 / 49) * V = INR m) <-> V = (25 / (7 / 10)) ^ 3.
Proof.
  intros V. split.
  - intros H. set (x := 10 ^ 6 * (7 / 10) / 10 ^ 10).
    assert (XE : x * 10 ^ 10 / (7 / 10) = Rpower 10 (6 + INR 0 * (6 / 49))).
    { cbn [INR]. rewrite Rmult_0_l, Rplus_0_r. replace 6 with (INR 6) at 1 by (cbn; lra). rewrite Rpower_pow by lra. unfold x. field. }
    assert (NN : forall y, In y [x] -> 0 <= y). { intros y [<-|[]]. unfold x. lra. }
    assert (NX : number (fun x => within (fun i => Rpower 10 (6 + INR i * (6 / 49))) 49 0 (x * 10 ^ 10 / (7 / 10))) [x] 1).
    { constructor 2; [|constructor]. rewrite XE. split; [apply Rle_refl|]. left. apply power_lt. cbn [INR]. lra. }
    specialize (H [x] 0%nat 1%nat NN ltac:(lia) NX).
    destruct (C114_counts_aux [x] NN) as [sm [g [E [_ [_ C]]]]]. rewrite E in H. cbn [snd] in H.
    destruct (C 0%nat ltac:(lia)) as [_ [m [M G]]]. assert (m = 1%nat) by exact (number_det _ _ _ M _ NX). subst m. cbn [INR] in G, H.
    set (y := nth 0 g 0) in *. clearbody y. assert (Y : y <> 0) by (intros ->; lra).
    apply (Rmult_eq_reg_l (y * (6 / 49))); [lra|]. nra.
  - intros -> raw i m NN I M. destruct (C114_counts_aux raw NN) as [sm [g [E [_ [_ C]]]]]. rewrite E. cbn [snd].
    destruct (C i I) as [_ [m' [M' G]]]. assert (m' = m) by exact (number_det _ _ _ M' _ M). subst m'. exact G.
Qed.
