(** Proofs about column density statistics. *)
From Coq Require Import ZArith List Reals Arith Lra Lia Permutation Bool.
From Flocq Require Import Core.Raux Core.Generic_fmt Core.Round_NE.
From Verif Require Import AbsorptionSpec AbsorptionProofs SightlineModel FluxModel FluxSpec FluxProofs FluxProofs2 FluxProofs3.
From Verif Require Import SnapshotProofs CddfModel CddfSpec.
Import ListNotations.
Local Open Scope R_scope.

(** ** Histograms with any increasing edges *)

Section Histogram.
Variables (e : nat -> R) (n : nat).
Hypothesis Hinc : forall i, (i < n)%nat -> e i < e (S i).

Definition inside (i : nat) (x : R) : Prop := e i <= x /\ (x < e (S i) \/ (S i = n /\ x = e n)).

Definition cum (l : list R) (i : nat) : R := if Nat.eqb i n then count_upto l (e n) else count_below l (e i).

Lemma hist_eq : forall l, histogram l (map e (seq 0 (S n))) = map (fun i => cum l (S i) - cum l i) (seq 0 n).
Proof.
  intros l. replace (S n) with (n + 1)%nat by lia. unfold histogram. rewrite removelast_map_seq, last_map_seq.
  rewrite <- (diff_map (cum l)). f_equal. replace (S n) with (n + 1)%nat by lia.
  rewrite seq_app, map_app. cbn [seq map plus]. f_equal.
  - rewrite map_map. apply map_ext_in. intros i Hi. apply in_seq in Hi. unfold cum. destruct (Nat.eqb_spec i n); [lia|reflexivity].
  - unfold cum. rewrite Nat.eqb_refl. reflexivity.
Qed.

Lemma cum_cons : forall f l i, cum (f :: l) i = cum l i +
  (if Nat.eqb i n then if Rle_dec f (e n) then 1 else 0 else if Rlt_dec f (e i) then 1 else 0).
Proof.
  intros f l i. unfold cum, count_upto, count_below. cbn [filter].
  destruct (Nat.eqb i n); [destruct (Rle_dec f (e n))|destruct (Rlt_dec f (e i))]; cbn [length]; rewrite ?S_INR; ring.
Qed.

Lemma inside_dec : forall i x, inside i x \/ ~ inside i x.
Proof.
  intros i x. unfold inside. destruct (Rle_dec (e i) x); [|right; tauto].
  destruct (Rlt_dec x (e (S i))); [left; tauto|].
  destruct (Nat.eq_dec (S i) n); [|right; intros (_ & [H|(H & _)]); contradiction].
  destruct (Req_dec x (e n)); [left; tauto|right; intros (_ & [?|(_ & ?)]); contradiction].
Qed.

Lemma inside_number : forall i l m, (i < n)%nat -> number (inside i) l m -> cum l (S i) - cum l i = INR m.
Proof.
  intros i l m Hi. pose proof (Hinc i Hi) as Hlt.
  set (d := fun f => (if Nat.eqb (S i) n then if Rle_dec f (e n) then 1 else 0 else if Rlt_dec f (e (S i)) then 1 else 0) -
    (if Nat.eqb i n then if Rle_dec f (e n) then 1 else 0 else if Rlt_dec f (e i) then 1 else 0)).
  assert (G : forall f, d f = 1 /\ inside i f \/ d f = 0 /\ ~ inside i f).
  { intros f. unfold d, inside. destruct (Nat.eqb_spec i n); [lia|].
    destruct (Nat.eqb_spec (S i) n) as [E|E].
    - rewrite <- E in *. destruct (Rle_dec f (e (S i))), (Rlt_dec f (e i)); [right|left|right|right]; (split; [lra|]).
      + intros (? & _); lra.
      + split; [lra|]. destruct (Rle_lt_or_eq_dec f (e (S i)) r); [left; assumption|right; split; [reflexivity|assumption]].
      + intros (? & _); lra.
      + intros (_ & [?|(_ & ?)]); lra.
    - destruct (Rlt_dec f (e (S i))), (Rlt_dec f (e i)); [right|left|right|right]; (split; [lra|]).
      + intros (? & _); lra.
      + split; [lra|left; assumption].
      + intros (? & _); lra.
      + intros (_ & [?|(? & ?)]); [lra|]. lia. }
  induction 1 as [|f l m Hf H IH|f l m Hf H IH].
  - unfold cum, count_upto, count_below. cbn [filter length INR]. destruct (Nat.eqb (S i) n), (Nat.eqb i n); ring.
  - rewrite !cum_cons. rewrite S_INR, <- IH. destruct (G f) as [(E & _)|(_ & C)]; [unfold d in E; lra|contradiction].
  - rewrite !cum_cons. rewrite <- IH. destruct (G f) as [(_ & C)|(E & _)]; [contradiction|unfold d in E; lra].
Qed.

Lemma e_mono : forall i j, (i <= j)%nat -> (j <= n)%nat -> e i <= e j.
Proof.
  intros i j H. induction H as [|j H IH]; intros Hj; [lra|]. apply Rle_trans with (e j); [apply IH; lia|].
  apply Rlt_le, Hinc. lia.
Qed.

Lemma inside_unique : forall i j x, (i < n)%nat -> (j < n)%nat -> inside i x -> inside j x -> i = j.
Proof.
  assert (W : forall i j x, (i < j)%nat -> (j < n)%nat -> inside i x -> inside j x -> False).
  { intros i j x Hij Hj (_ & Hx) (Hx' & _). pose proof (e_mono (S i) j ltac:(lia) ltac:(lia)).
    destruct Hx as [?|(? & _)]; [lra|lia]. }
  intros i j x Hi Hj H1 H2. destruct (lt_eq_lt_dec i j) as [[H|H]|H]; [exfalso; eauto|assumption|exfalso; eauto].
Qed.

Lemma inside_some : forall x, (0 < n)%nat -> e 0 <= x <= e n -> exists i, (i < n)%nat /\ inside i x.
Proof.
  intros x Hn (H0 & H1).
  assert (G : forall k, (0 < k)%nat -> (k <= n)%nat -> x < e k -> exists i, (i < k)%nat /\ e i <= x < e (S i)).
  { induction k as [|k IH]; intros Hk0 Hk Hx; [lia|]. destruct (Rlt_dec x (e k)) as [Hl|Hl].
    - destruct k as [|k]; [lra|]. destruct (IH ltac:(lia) ltac:(lia) Hl) as (i & Hi & H). exists i. split; [lia|assumption].
    - exists k. split; [lia|lra]. }
  destruct (Rle_lt_or_eq_dec _ _ H1) as [Hl|E].
  - destruct (G n Hn ltac:(lia) Hl) as (i & Hi & H). exists i. split; [assumption|]. unfold inside. tauto.
  - exists (n - 1)%nat. split; [lia|]. unfold inside. replace (S (n - 1)) with n by lia. split; [|right; split; [reflexivity|assumption]].
    rewrite E. apply e_mono; lia.
Qed.

Lemma inside_range : forall i x, (i < n)%nat -> inside i x -> e 0 <= x <= e n.
Proof.
  intros i x Hi (H1 & H2). pose proof (e_mono 0 i ltac:(lia) ltac:(lia)). pose proof (e_mono (S i) n ltac:(lia) ltac:(lia)).
  destruct H2 as [?|(_ & ?)]; lra.
Qed.

Lemma hist_total : forall l m, (0 < n)%nat -> number (fun x => e 0 <= x <= e n) l m -> rsum (histogram l (map e (seq 0 (S n)))) = INR m.
Proof.
  intros l m Hn H. rewrite hist_eq. rewrite (telescope (fun x => x) (cum l) n).
  assert (G : forall x l, cum (x :: l) n - cum (x :: l) 0 = cum l n - cum l 0 + (if Rle_dec x (e n) then if Rlt_dec x (e 0) then 0 else 1 else 0)).
  { intros x l'. rewrite !cum_cons. rewrite Nat.eqb_refl. destruct (Nat.eqb_spec 0 n); [lia|]. pose proof (e_mono 0 n ltac:(lia) ltac:(lia)).
    destruct (Rle_dec x (e n)), (Rlt_dec x (e 0)); lra. }
  induction H as [|x l m Hx H IH|x l m Hx H IH].
  - unfold cum, count_upto, count_below. cbn [filter length INR]. destruct (Nat.eqb n n), (Nat.eqb 0 n); ring.
  - rewrite G, IH, S_INR. destruct (Rle_dec x (e n)), (Rlt_dec x (e 0)); lra.
  - rewrite G, IH. destruct (Rle_dec x (e n)), (Rlt_dec x (e 0)); lra.
Qed.
End Histogram.

(** ** Groups of pixels *)

Lemma close_bins_spec : forall close dvbin, (1 <= close_bins close dvbin)%nat /\
  (close_bins close dvbin = 1%nat /\ close / dvbin <= 3 / 2 \/ Rabs (INR (close_bins close dvbin) - close / dvbin) <= / 2).
Proof.
  intros close dvbin. unfold close_bins. set (x := close / dvbin).
  assert (N : Rabs (IZR (ZnearestE x) - x) <= / 2) by (rewrite Rabs_minus_sym; apply Znearest_half).
  split; [lia|]. destruct (Z_le_dec (ZnearestE x) 1) as [H|H].
  - left. rewrite Z.max_r by assumption. split; [reflexivity|]. apply IZR_le in H. apply Rabs_le_inv in N. lra.
  - right. rewrite Z.max_l by lia. rewrite INR_IZR_INZ, Z2Nat.id by lia. assumption.
Qed.

Lemma rebin_spec : forall c row, (1 <= c)%nat -> exists groups, cut_into c row groups /\ rebin c row = map rsum groups.
Proof.
  intros c row Hc. set (q := (length row / c)%nat).
  assert (Hq : (c * q <= length row)%nat) by (apply Nat.mul_div_le; lia).
  assert (Hr : (length row - c * q < c)%nat).
  { pose proof (Nat.div_mod_eq (length row) c) as E. fold q in E. pose proof (Nat.mod_upper_bound (length row) c ltac:(lia)). lia. }
  exists (map (fun i => py_slice (c * i) (c * (i + 1)) row) (seq 0 q)). split.
  2: { unfold rebin. fold q. rewrite map_map. reflexivity. }
  assert (G : forall k, (c * k <= length row)%nat -> concat (map (fun i => py_slice (c * i) (c * (i + 1)) row) (seq 0 k)) = firstn (c * k) row).
  { induction k as [|k IH]; intros Hk; [rewrite Nat.mul_0_r; reflexivity|].
    replace (S k) with (k + 1)%nat at 1 by lia. rewrite seq_app, map_app, concat_app, IH by lia. cbn [plus seq map concat]. rewrite app_nil_r.
    unfold py_slice. replace (c * (k + 1) - c * k)%nat with c by lia. replace (c * S k)%nat with (c * k + c)%nat by lia.
    transitivity (firstn (c * k + c) (firstn (c * k) row ++ skipn (c * k) row)); [|rewrite firstn_skipn; reflexivity].
    rewrite firstn_app. rewrite (firstn_length_le row) by lia.
    rewrite (firstn_all2 (firstn (c * k) row)) by (rewrite firstn_length; lia). f_equal. f_equal. lia. }
  exists (skipn (c * q) row). split; [rewrite G by assumption; symmetry; apply firstn_skipn|].
  split; [|rewrite skipn_length; assumption].
  apply Forall_forall. intros g Hg. apply in_map_iff in Hg. destruct Hg as (i & <- & Hi). apply in_seq in Hi. unfold py_slice.
  rewrite firstn_length_le; [lia|]. rewrite skipn_length. assert (c * (i + 1) <= c * q)%nat by (apply Nat.mul_le_mono_l; lia). lia.
Qed.

Lemma absorbers_spec : forall line close dvbin rho,
  absorbers_of line (close / dvbin) rho (if line then map rsum rho else concat (map (rebin (close_bins close dvbin)) rho)).
Proof.
  intros [|] close dvbin rho; cbn [absorbers_of]; [reflexivity|].
  destruct (close_bins_spec close dvbin) as (H1 & H2). set (c := close_bins close dvbin) in *.
  assert (G : exists groups, Forall2 (cut_into c) rho groups /\ concat (map (rebin c) rho) = map rsum (concat groups)).
  { induction rho as [|row rho (groups & F & E)]; [exists []; split; [constructor|reflexivity]|].
    destruct (rebin_spec c row H1) as (g & Hg & Er). exists (g :: groups). split; [constructor; assumption|].
    cbn [map concat]. rewrite map_app, <- Er, E. reflexivity. }
  destruct G as (groups & F & E). exists c, groups. auto.
Qed.

(** ** The distribution function *)

Lemma table_eq : forall minN maxN dlogN, nhi_table minN maxN dlogN =
  map (bin_edge minN dlogN) (seq 0 (Z.to_nat (Zceil ((maxN - minN) / dlogN)))).
Proof. intros. unfold nhi_table, arange. rewrite map_map. reflexivity. Qed.

Lemma edge_inc : forall minN dlogN i, 0 < dlogN -> bin_edge minN dlogN i < bin_edge minN dlogN (S i).
Proof.
  intros minN dlogN i H. unfold bin_edge. apply Rpower_lt; [lra|]. rewrite S_INR. lra.
Qed.

Lemma centers_map : forall (f : nat -> R) n a, centers (map f (seq a (S n))) = map (fun i => (f i + f (S i)) / 2) (seq a n).
Proof.
  induction n as [|n IH]; intros a; [reflexivity|].
  change (seq a (S (S n))) with (a :: seq (S a) (S n)). change (seq a (S n)) with (a :: seq (S a) n).
  cbn [map]. rewrite <- IH. reflexivity.
Qed.

Lemma combine_maps : forall (A B C : Type) (f : A -> B) (g : A -> C) l, combine (map f l) (map g l) = map (fun i => (f i, g i)) l.
Proof. intros. induction l as [|x l IH]; [reflexivity|]. cbn. rewrite IH. reflexivity. Qed.

Lemma number_bins : forall minN maxN dlogN, 0 < dlogN -> minN < maxN ->
  exists n, Z.to_nat (Zceil ((maxN - minN) / dlogN)) = S n /\ minN + INR n * dlogN < maxN <= minN + INR (S n) * dlogN.
Proof.
  intros minN maxN dlogN Hd Hm. set (x := (maxN - minN) / dlogN).
  assert (Hx : 0 < x) by (apply Rdiv_lt_0_compat; lra).
  assert (Ex : maxN = minN + x * dlogN) by (unfold x; field; lra).
  pose proof (Zceil_ub x) as U. pose proof (Zceil_lb x) as L.
  assert (Hz : (0 < Zceil x)%Z) by (apply lt_IZR; lra).
  exists (Z.to_nat (Zceil x) - 1)%nat. split; [lia|].
  assert (EI : INR (Z.to_nat (Zceil x) - 1) = IZR (Zceil x) - 1).
  { rewrite INR_IZR_INZ. rewrite <- minus_IZR. f_equal. lia. }
  rewrite S_INR, EI. replace (IZR (Zceil x) - 1 + 1) with (IZR (Zceil x)) by ring. rewrite Ex.
  split; [apply Rplus_lt_compat_l, Rmult_lt_compat_r; lra|apply Rplus_le_compat_l, Rmult_le_compat_r; lra].
Qed.

Lemma C26_counts_aux : forall minN maxN dlogN dist discarded line close dvbin rho,
  0 < dlogN -> minN < maxN -> 0 < dist -> rho <> [] ->
  exists a n center f,
    absorbers_of line (close / dvbin) rho a /\
    minN + INR n * dlogN < maxN <= minN + INR (S n) * dlogN /\
    column_density_function minN maxN dlogN dist discarded line close dvbin rho = (center, f) /\
    length center = n /\ length f = n /\
    (forall i, (i < n)%nat ->
       nth i center 0 = (bin_edge minN dlogN i + bin_edge minN dlogN (S i)) / 2 /\
       exists m, number (falls_into minN dlogN n i) a m /\
         nth i f 0 * (bin_edge minN dlogN (S i) - bin_edge minN dlogN i) * (dist * INR (length rho + discarded)) = INR m) /\
    (forall x, (exists i, (i < n)%nat /\ falls_into minN dlogN n i x) <->
               (0 < n)%nat /\ bin_edge minN dlogN 0 <= x <= bin_edge minN dlogN n) /\
    (forall x i j, (i < n)%nat -> (j < n)%nat -> falls_into minN dlogN n i x -> falls_into minN dlogN n j x -> i = j) /\
    (exists m, number (fun x => (0 < n)%nat /\ bin_edge minN dlogN 0 <= x <= bin_edge minN dlogN n) a m /\
      rsum (map (fun i => nth i f 0 * (bin_edge minN dlogN (S i) - bin_edge minN dlogN i)) (seq 0 n)) * (dist * INR (length rho + discarded)) = INR m).
Proof.
  intros minN maxN dlogN dist discarded line close dvbin rho Hd Hm Hdist Hrho.
  destruct (number_bins minN maxN dlogN Hd Hm) as (n & En & Hn).
  set (a := if line then map rsum rho else concat (map (rebin (close_bins close dvbin)) rho)).
  set (e := bin_edge minN dlogN).
  assert (Hinc : forall i, (i < n)%nat -> e i < e (S i)) by (intros; apply edge_inc; assumption).
  assert (Htot : INR (length rho) + INR discarded = INR (length rho + discarded)) by (rewrite plus_INR; reflexivity).
  assert (Hpos : 0 < INR (length rho + discarded)) by (apply lt_0_INR; destruct rho; [congruence|cbn; lia]).
  set (tot := INR (length rho + discarded)) in *.
  set (f := map (fun i => (cum e n a (S i) - cum e n a i) / ((e (S i) - e i) * dist * tot)) (seq 0 n)).
  exists a, n, (map (fun i => (e i + e (S i)) / 2) (seq 0 n)), f.
  assert (Nf : forall i, (i < n)%nat -> nth i f 0 * (e (S i) - e i) * (dist * tot) = cum e n a (S i) - cum e n a i).
  { intros i Hi. unfold f. rewrite map_seq_nth by assumption. specialize (Hinc i Hi). field. split; [lra|]. split; lra. }
  split; [apply absorbers_spec|]. split; [assumption|]. split.
  { unfold column_density_function. fold a. rewrite Htot, table_eq, En. fold e. rewrite centers_map, hist_eq, diff_map. f_equal.
    rewrite combine_maps, map_map. reflexivity. }
  split; [rewrite map_length, seq_length; reflexivity|]. split; [unfold f; rewrite map_length, seq_length; reflexivity|].
  split.
  { intros i Hi. rewrite map_seq_nth by assumption. split; [reflexivity|].
    destruct (number_exists _ (inside e n i) (inside_dec e n i) a) as (m & Hnum). exists m. split; [exact Hnum|].
    change (nth i f 0 * (e (S i) - e i) * (dist * tot) = INR m). rewrite Nf by assumption. apply inside_number; assumption. }
  split.
  { intros x. split.
    - intros (i & Hi & Hx). split; [lia|]. apply (inside_range e n Hinc i); assumption.
    - intros (H0 & Hx). apply (inside_some e n Hinc); assumption. }
  split; [intros x i j Hi Hj; apply (inside_unique e n Hinc); assumption|].
  destruct (number_exists _ (fun x => (0 < n)%nat /\ e 0%nat <= x <= e n) ltac:(intros x; destruct (lt_dec 0 n), (Rle_dec (e 0%nat) x), (Rle_dec x (e n)); tauto) a) as (m & Hnum).
  exists m. split; [exact Hnum|].
  rewrite Rmult_comm, <- rsum_map_scal.
  rewrite (rsum_map_ext _ _ (fun i => cum e n a (S i) - cum e n a i)).
  2: { intros i Hi. apply in_seq in Hi. rewrite <- Nf by lia. unfold e. ring. }
  rewrite <- hist_eq. destruct (Nat.eq_dec n 0) as [->|Hn0].
  - rewrite hist_eq. cbn [seq map]. assert (m = 0)%nat; [|subst m; reflexivity]. revert Hnum. clear. intros H.
    induction H as [|x l m (H0 & _)|]; [reflexivity|lia|assumption].
  - apply (hist_total e n Hinc); [lia|]. revert Hnum. clear - Hn0. intros H.
    induction H as [|x l m (H0 & Hx) H IH|x l m Hx H IH]; [constructor|constructor; assumption|constructor; [|assumption]]. intros C. apply Hx. split; [lia|assumption].
Qed.

(** Nothing between the last edge and maxN is counted. *)
Lemma C26_top_aux : forall minN maxN dlogN dist discarded dvbin close x, 0 < dlogN -> minN < maxN ->
  exists n, minN + INR n * dlogN < maxN /\
    (Rpower 10 (minN + INR n * dlogN) < x < Rpower 10 maxN ->
     forall i, nth i (snd (column_density_function minN maxN dlogN dist discarded true close dvbin [[x]])) 0 = 0).
Proof.
  intros minN maxN dlogN dist discarded dvbin close x Hd Hm.
  destruct (number_bins minN maxN dlogN Hd Hm) as (n & En & Hn). exists n. split; [apply Hn|]. intros Hx i.
  set (e := bin_edge minN dlogN). assert (Hinc : forall i, (i < n)%nat -> e i < e (S i)) by (intros; apply edge_inc; assumption).
  unfold column_density_function. rewrite table_eq, En. fold e. cbn [snd]. rewrite hist_eq, diff_map.
  assert (Z0 : forall i, (i < n)%nat -> cum e n (map rsum [[x]]) (S i) - cum e n (map rsum [[x]]) i = INR 0).
  { intros j Hj. apply inside_number; [assumption|assumption|]. constructor; [|constructor]. intros C.
    apply (inside_range e n Hinc j _ Hj) in C. cbn [rsum fold_right] in C. unfold e, bin_edge in C. lra. }
  set (F := fun p : R * R => fst p / (snd p * dist * (INR (length [[x]]) + INR discarded))).
  set (L := combine (map (fun i => cum e n (map rsum [[x]]) (S i) - cum e n (map rsum [[x]]) i) (seq 0 n)) (map (fun i => e (S i) - e i) (seq 0 n))).
  assert (Ln : length L = n) by (unfold L; rewrite combine_length, !map_length, seq_length; lia).
  destruct (lt_dec i n) as [Hi|Hi]; [|apply nth_overflow; rewrite map_length; lia].
  rewrite (nth_indep _ 0 (F (0, 0))) by (rewrite map_length; lia). rewrite (map_nth F). unfold L.
  rewrite combine_nth by (rewrite !map_length; reflexivity). unfold F. cbn [fst]. rewrite map_seq_nth by assumption. rewrite Z0 by assumption.
  cbn [INR]. unfold Rdiv. ring.
Qed.

(** ** Line densities and densities of absorbers *)

Lemma selected_number : forall lo hi l, number (fun x => lo < x < hi) l (length (selected lo hi l)).
Proof.
  intros. apply number_filter. intros x. destruct (Rlt_dec lo x), (Rlt_dec x hi); split; intros; try tauto; try discriminate; lra.
Qed.

Lemma C56_line_density_aux : forall dist discarded lo hi rho, 0 < dist -> rho <> [] ->
  exists m, number (fun x => lo < x < hi) (map rsum rho) m /\
    line_density dist discarded lo hi rho = Some (INR m / (INR (length rho + discarded) * dist)).
Proof.
  intros dist discarded lo hi rho Hd Hr. exists (length (selected lo hi (map rsum rho))). split; [apply selected_number|].
  unfold line_density. assert (Hp : 0 < INR (length rho)) by (apply lt_0_INR; destruct rho; [congruence|cbn; lia]).
  rewrite map_length. pose proof (pos_INR discarded). rewrite plus_INR.
  destruct (map rsum rho) eqn:E; [destruct rho; [congruence|discriminate]|]. f_equal. field. repeat split; lra.
Qed.

Lemma C56_density_aux : forall mass len red discarded lo hi rho, len <> 0 -> 1 + red <> 0 -> rho <> [] ->
  rho_abs mass len red discarded lo (Some hi) rho =
  Some (mass * (rsum (filter (fun x => if Rlt_dec lo x then if Rlt_dec x hi then true else false else false) (map rsum rho)) /
               INR (length rho + discarded)) / (1 + red) ^ 2 / len).
Proof.
  intros mass len red discarded lo hi rho Hl Hz Hr. unfold rho_abs. fold (selected lo hi (map rsum rho)). rewrite map_length.
  assert (Hp : 0 < INR (length rho)) by (apply lt_0_INR; destruct rho; [congruence|cbn; lia]).
  pose proof (pos_INR discarded). rewrite plus_INR.
  destruct (map rsum rho) eqn:E; [destruct rho; [congruence|discriminate]|]. f_equal. field. repeat split; try assumption; lra.
Qed.

Lemma selected_split : forall lo mid hi l, lo < mid < hi -> (forall x, In x l -> x <> mid) ->
  rsum (selected lo hi l) = rsum (selected lo mid l) + rsum (selected mid hi l) /\
  length (selected lo hi l) = (length (selected lo mid l) + length (selected mid hi l))%nat.
Proof.
  intros lo mid hi l Hm. induction l as [|x l IH]; intros H; [cbn; split; [lra|reflexivity]|].
  destruct IH as (I1 & I2); [intros; apply H; right; assumption|]. specialize (H x (or_introl eq_refl)).
  unfold selected in *. cbn [filter].
  destruct (Rlt_dec lo x), (Rlt_dec x hi), (Rlt_dec x mid), (Rlt_dec mid x); try lra; cbn [rsum fold_right length]; unfold rsum in *; split; try lra; lia.
Qed.

Lemma C56_additive_aux : forall mass len red rho_crit dist discarded lo mid hi rho, 0 < dist -> len <> 0 -> 1 + red <> 0 -> rho_crit <> 0 ->
  lo < mid < hi -> rho <> [] -> (forall row, In row rho -> rsum row <> mid) ->
  (exists a b c, line_density dist discarded lo hi rho = Some c /\ line_density dist discarded lo mid rho = Some a /\
     line_density dist discarded mid hi rho = Some b /\ c = a + b) /\
  (exists a b c, omega_abs mass len red rho_crit discarded lo hi rho = Some c /\ omega_abs mass len red rho_crit discarded lo mid rho = Some a /\
     omega_abs mass len red rho_crit discarded mid hi rho = Some b /\ c = a + b).
Proof.
  intros mass len red rho_crit dist discarded lo mid hi rho Hd Hl Hz Hc Hm Hr Hmid.
  assert (Hx : forall x, In x (map rsum rho) -> x <> mid) by (intros x Hx; apply in_map_iff in Hx; destruct Hx as (row & <- & Hrow); auto).
  destruct (selected_split lo mid hi _ Hm Hx) as (S1 & S2).
  assert (Hp : 0 < INR (length rho)) by (apply lt_0_INR; destruct rho; [congruence|cbn; lia]).
  pose proof (pos_INR discarded) as Hdis. split.
  - unfold line_density. destruct (map rsum rho) as [|x l] eqn:E; [destruct rho; [congruence|discriminate]|]. rewrite <- E in *. rewrite !map_length.
    eexists _, _, _. split; [reflexivity|]. split; [reflexivity|]. split; [reflexivity|]. rewrite S2, plus_INR. field. repeat split; lra.
  - unfold omega_abs. rewrite !C56_density_aux by assumption. eexists _, _, _. split; [reflexivity|]. split; [reflexivity|]. split; [reflexivity|].
    unfold selected in S1. rewrite S1. rewrite plus_INR. field. repeat split; try assumption; lra.
Qed.

Lemma C56_rho_DLA_aux : forall mass len red conv discarded thresh rho, 0 < thresh -> rho <> [] -> rho_DLA mass len red conv discarded thresh rho = None.
Proof.
  intros. unfold rho_DLA, rho_abs. destruct (map rsum rho); [reflexivity|]. destruct (Rlt_dec 0 thresh); [reflexivity|contradiction].
Qed.

Lemma C26_top_exists_aux : forall minN maxN dlogN dist discarded dvbin close, 0 < dlogN -> minN < maxN ->
  exists x, Rpower 10 minN < x < Rpower 10 maxN /\
    forall i, nth i (snd (column_density_function minN maxN dlogN dist discarded true close dvbin [[x]])) 0 = 0.
Proof.
  intros minN maxN dlogN dist discarded dvbin close Hd Hm.
  set (x n := (Rpower 10 (minN + INR n * dlogN) + Rpower 10 maxN) / 2).
  destruct (number_bins minN maxN dlogN Hd Hm) as (n & En & Hn).
  assert (H : Rpower 10 (minN + INR n * dlogN) < Rpower 10 maxN) by (apply Rpower_lt; lra).
  assert (H0 : Rpower 10 minN <= Rpower 10 (minN + INR n * dlogN)).
  { pose proof (pos_INR n). assert (0 <= INR n * dlogN) by (apply Rmult_le_pos; lra). apply Rle_Rpower; lra. }
  exists (x n). split; [unfold x; lra|].
  set (e := bin_edge minN dlogN). assert (Hinc : forall i, (i < n)%nat -> e i < e (S i)) by (intros; apply edge_inc; assumption).
  destruct (C26_top_aux minN maxN dlogN dist discarded dvbin close (x n) Hd Hm) as (n' & Hn' & G). apply G.
  enough (INR n' * dlogN <= INR n * dlogN) as Hle.
  { assert (Rpower 10 (minN + INR n' * dlogN) <= Rpower 10 (minN + INR n * dlogN)) by (apply Rle_Rpower; lra). unfold x. lra. }
  apply Rmult_le_compat_r; [lra|]. destruct (Rle_dec (INR n') (INR n)) as [|C]; [assumption|]. exfalso.
  assert (n < n')%nat by (apply INR_lt; lra). assert (INR (S n) <= INR n') by (apply le_INR; lia).
  assert (INR (S n) * dlogN <= INR n' * dlogN) by (apply Rmult_le_compat_r; lra). lra.
Qed.

Lemma C56_rho_DLA_all_aux : forall mass len red conv discarded thresh rho, len <> 0 -> 1 + red <> 0 -> thresh <= 0 -> rho <> [] ->
  rho_DLA mass len red conv discarded thresh rho =
  Some (mass * (rsum (map rsum rho) / INR (length rho + discarded)) / (1 + red) ^ 2 / len / conv).
Proof.
  intros mass len red conv discarded thresh rho Hl Hz Ht Hr. unfold rho_DLA, rho_abs.
  assert (Hp : 0 < INR (length rho)) by (apply lt_0_INR; destruct rho; [congruence|cbn; lia]).
  pose proof (pos_INR discarded) as Hdis.
  destruct (map rsum rho) as [|x l] eqn:E; [destruct rho; [congruence|discriminate]|]. rewrite <- E. rewrite !map_length.
  destruct (Rlt_dec 0 thresh); [lra|]. f_equal. f_equal. rewrite plus_INR. field. repeat split; lra.
Qed.
