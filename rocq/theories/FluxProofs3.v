(** Proofs about the flux PDF and the three dimensional flux power. *)
From Coq Require Import ZArith List Reals Lra Lia Arith Permutation.
From Verif Require Import AbsorptionSpec AbsorptionProofs SnapshotModel SnapshotProofs RescaleModel RescaleSpec RescaleProofs
  FluxModel FluxSpec FluxProofs FluxProofs2.
Import ListNotations.
Local Open Scope R_scope.

(** ** Counting *)

Lemma number_exists : forall (A : Type) (P : A -> Prop), (forall x, P x \/ ~ P x) -> forall l, exists n, number P l n.
Proof.
  intros A P D. induction l as [|x l (n & H)]; [exists O; constructor|].
  destruct (D x); [exists (S n)|exists n]; constructor; assumption.
Qed.

Lemma number_det : forall (A : Type) (P : A -> Prop) l n m, number P l n -> number P l m -> n = m.
Proof.
  intros A P l n m H. revert m. induction H; intros m' H'; inversion H'; subst; try contradiction; auto.
Qed.

Lemma number_all : forall (A : Type) (P : A -> Prop) l, Forall P l -> number P l (length l).
Proof. induction 1; [constructor|]. cbn [length]. constructor; assumption. Qed.

Lemma number_perm : forall (A : Type) (P : A -> Prop) l l', Permutation l l' -> forall n, number P l n -> number P l' n.
Proof.
  induction 1; intros n Hn.
  - assumption.
  - inversion Hn; subst; constructor; auto.
  - inversion Hn as [|? ? ? ? H1|? ? ? ? H1]; subst; inversion H1; subst; eauto using @number_yes, @number_no.
  - auto.
Qed.

Lemma number_filter : forall (A : Type) (P : A -> Prop) (f : A -> bool) l, (forall x, f x = true <-> P x) ->
  number P l (length (filter f l)).
Proof.
  intros A P f l H. induction l as [|x l IH]; [constructor|]. cbn [filter]. destruct (f x) eqn:E.
  - cbn [length]. constructor; [apply H; assumption|assumption].
  - constructor; [|assumption]. intros C. apply H in C. congruence.
Qed.

(** ** The histogram *)

Lemma diff_map : forall (G : nat -> R) n a, diff (map G (seq a (S n))) = map (fun i => G (S i) - G i) (seq a n).
Proof.
  induction n as [|n IH]; intros a; [reflexivity|].
  change (seq a (S (S n))) with (a :: seq (S a) (S n)). change (seq a (S n)) with (a :: seq (S a) n).
  cbn [map]. rewrite <- IH. reflexivity.
Qed.

Definition edge (n i : nat) : R := INR i / INR n.

Definition cumulative (l : list R) (n i : nat) : R :=
  if Nat.eqb i n then count_upto l 1 else count_below l (edge n i).

Lemma removelast_map_seq : forall (f : nat -> R) n, removelast (map f (seq 0 (n + 1))) = map f (seq 0 n).
Proof.
  intros f n. rewrite seq_app, map_app. cbn [seq map plus]. apply removelast_last.
Qed.

Lemma last_map_seq : forall (f : nat -> R) n, last (map f (seq 0 (n + 1))) 0 = f n.
Proof. intros f n. rewrite seq_app, map_app. cbn [seq map plus]. apply last_last. Qed.

Lemma pdf_bins_eq : forall n, pdf_bins n = map (edge n) (seq 0 (n + 1)).
Proof. intros n. unfold pdf_bins. apply map_ext. intros i. unfold edge. rewrite Rmult_1_l. reflexivity. Qed.

Lemma histogram_eq : forall l n, (0 < n)%nat ->
  histogram l (pdf_bins n) = map (fun i => cumulative l n (S i) - cumulative l n i) (seq 0 n).
Proof.
  intros l n Hn. unfold histogram. rewrite pdf_bins_eq, removelast_map_seq, last_map_seq.
  rewrite <- (diff_map (cumulative l n)). f_equal. replace (S n) with (n + 1)%nat by lia.
  rewrite seq_app, map_app. cbn [seq map plus]. f_equal.
  - rewrite map_map. apply map_ext_in. intros i Hi. apply in_seq in Hi. unfold cumulative.
    destruct (Nat.eqb_spec i n); [lia|reflexivity].
  - unfold cumulative. rewrite Nat.eqb_refl. f_equal. f_equal. unfold edge. apply Rinv_r.
    apply not_0_INR. lia.
Qed.

Lemma cumulative_cons : forall f l n i, (0 < n)%nat -> cumulative (f :: l) n i = cumulative l n i +
  (if Nat.eqb i n then if Rle_dec f 1 then 1 else 0 else if Rlt_dec f (edge n i) then 1 else 0).
Proof.
  intros f l n i Hn. unfold cumulative, count_upto, count_below. cbn [filter].
  destruct (Nat.eqb i n); [destruct (Rle_dec f 1)|destruct (Rlt_dec f (edge n i))]; cbn [length]; rewrite ?S_INR; ring.
Qed.

Lemma edge_S : forall n i, (0 < n)%nat -> edge n i < edge n (S i).
Proof.
  intros n i Hn. unfold edge. apply Rmult_lt_compat_r; [apply Rinv_0_lt_compat, lt_0_INR; assumption|]. apply lt_INR. lia.
Qed.

Lemma bin_number : forall n i l m, (i < n)%nat -> number (in_bin n i) l m ->
  cumulative l n (S i) - cumulative l n i = INR m.
Proof.
  intros n i l m Hi. assert (Hn : (0 < n)%nat) by lia.
  assert (En : edge n n = 1) by (unfold edge; apply Rinv_r, not_0_INR; lia).
  pose proof (edge_S n i Hn) as Hlt.
  assert (G : forall f, (if Nat.eqb (S i) n then if Rle_dec f 1 then 1 else 0 else if Rlt_dec f (edge n (S i)) then 1 else 0) -
    (if Nat.eqb i n then if Rle_dec f 1 then 1 else 0 else if Rlt_dec f (edge n i) then 1 else 0) = 1 /\ in_bin n i f \/
    (if Nat.eqb (S i) n then if Rle_dec f 1 then 1 else 0 else if Rlt_dec f (edge n (S i)) then 1 else 0) -
    (if Nat.eqb i n then if Rle_dec f 1 then 1 else 0 else if Rlt_dec f (edge n i) then 1 else 0) = 0 /\ ~ in_bin n i f).
  { intros f. unfold in_bin. fold (edge n i) (edge n (S i)). destruct (Nat.eqb_spec i n); [lia|].
    destruct (Nat.eqb_spec (S i) n) as [E|E].
    - rewrite E in *. rewrite En in Hlt |- *. destruct (Rle_dec f 1), (Rlt_dec f (edge n i)); [right|left|right|right]; (split; [lra|]).
      + intros ([?|?] & _); lra.
      + split; [lra|]. destruct (Rle_lt_or_eq_dec f 1 r); [left; assumption|right; split; [reflexivity|assumption]].
      + intros ([?|?] & _); lra.
      + intros (_ & [?|(_ & ?)]); lra.
    - destruct (Rlt_dec f (edge n (S i))), (Rlt_dec f (edge n i)); [right|left|right|right]; (split; [lra|]).
      + intros ([?|?] & _); lra.
      + split; [lra|left; assumption].
      + intros ([?|?] & _); lra.
      + intros (_ & [?|(? & ?)]); [lra|]. lia. }
  induction 1 as [|f l m Hf H IH|f l m Hf H IH].
  - unfold cumulative, count_upto, count_below. cbn. destruct n as [|n']; [lia|]. destruct (Nat.eqb i n'), (Nat.eqb i (S n')); cbn; ring.
  - rewrite !cumulative_cons by assumption. rewrite S_INR, <- IH. destruct (G f) as [(E & _)|(_ & C)]; [lra|contradiction].
  - rewrite !cumulative_cons by assumption. rewrite <- IH. destruct (G f) as [(_ & C)|(E & _)]; [contradiction|lra].
Qed.

Lemma histogram_sum : forall l n, (0 < n)%nat ->
  rsum (histogram l (pdf_bins n)) = count_upto l 1 - count_below l 0.
Proof.
  intros l n Hn. rewrite histogram_eq by assumption. rewrite (telescope (fun x => x) (cumulative l n) n).
  unfold cumulative. rewrite Nat.eqb_refl. destruct (Nat.eqb_spec 0 n); [lia|]. f_equal. f_equal. unfold edge. cbn [INR]. field.
  apply not_0_INR. lia.
Qed.

Lemma in_bin_dec : forall n i f, in_bin n i f \/ ~ in_bin n i f.
Proof.
  intros n i f. unfold in_bin. destruct (Rle_dec (INR i / INR n) f); [|right; intros (H & _); contradiction].
  destruct (Rlt_dec f (INR (S i) / INR n)); [left; split; [assumption|left; assumption]|].
  destruct (Nat.eq_dec (S i) n); [|right; intros (_ & [H|(H & _)]); contradiction].
  destruct (Req_EM_T f 1); [left; split; [assumption|right; split; assumption]|].
  right. intros (_ & [H|(_ & H)]); contradiction.
Qed.

Lemma positive_below : forall l, Forall (fun f => 0 < f) l -> count_below l 0 = 0.
Proof.
  intros l H. unfold count_below. replace (filter _ l) with (@nil R); [reflexivity|].
  induction H as [|f l Hf _ IH]; [reflexivity|]. cbn [filter]. destruct (Rlt_dec f 0); [lra|]. assumption.
Qed.

Definition fluxes (s : R) (tau : list R) : list R := map (fun t => exp (- (s * t))) tau.

Lemma fluxes_pos : forall s tau, Forall (fun f => 0 < f) (fluxes s tau).
Proof. intros. apply Forall_forall. intros f Hf. apply in_map_iff in Hf. destruct Hf as (t & <- & _). apply exp_pos. Qed.

Lemma combine_maps : forall (f g : nat -> R) l, combine (map f l) (map g l) = map (fun k => (f k, g k)) l.
Proof. induction l as [|k l IH]; [reflexivity|]; cbn [map combine]; rewrite IH; reflexivity. Qed.

Lemma flux_pdf_eq : forall parts fuel tau nbins desired s, (0 < nbins)%nat -> scaled_by parts fuel tau desired s ->
  flux_pdf parts fuel tau nbins desired =
  if Req_EM_T (count_upto (fluxes s tau) 1) 0 then None
  else Some (map (fun i => (edge nbins (S i) + edge nbins i) / 2) (seq 0 nbins),
             map (fun i => (cumulative (fluxes s tau) nbins (S i) - cumulative (fluxes s tau) nbins i) /
                           (edge nbins (S i) - edge nbins i) / count_upto (fluxes s tau) 1) (seq 0 nbins)).
Proof.
  intros parts fuel tau nbins desired s Hn Hs. unfold flux_pdf. destruct nbins as [|nb] eqn:En; [lia|]. rewrite <- En in *.
  assert (E : exists m, (match desired with None => Some (1, 0) | Some _ => scale_and_mean parts fuel tau desired end) = Some (s, m)).
  { pose proof (scale_and_mean_some _ _ _ _ _ Hs) as E. destruct desired as [d|]; [rewrite E; eexists; reflexivity|].
    cbn [scaled_by] in Hs. subst s. eexists; reflexivity. }
  destruct E as (m & ->).
  replace (map (fun t => exp (- s * t)) tau) with (fluxes s tau) by (apply map_ext; intros; f_equal; ring).
  unfold histogram_density. rewrite histogram_sum by assumption. rewrite positive_below by apply fluxes_pos. rewrite Rminus_0_r.
  destruct (Req_EM_T (count_upto (fluxes s tau) 1) 0) as [|Hc]; [reflexivity|]. f_equal.
  rewrite histogram_eq by assumption. rewrite !pdf_bins_eq. rewrite removelast_map_seq.
  replace (nbins + 1)%nat with (S nbins) by lia. rewrite diff_map.
  rewrite combine_maps, map_map. f_equal.
  change (seq 0 (S nbins)) with (0%nat :: seq 1 nbins). cbn [map tl]. rewrite <- seq_shift, map_map, combine_maps, map_map. reflexivity.
Qed.

Lemma nothing_counted : forall s tau, count_upto (fluxes s tau) 1 = 0 <-> Forall (fun t => 1 < exp (- (s * t))) tau.
Proof.
  intros s tau. unfold count_upto, fluxes. split.
  - intros H. change 0 with (INR 0) in H. apply INR_eq in H.
    induction tau as [|t tau IH]; [constructor|]. cbn [map filter] in H. destruct (Rle_dec (exp (- (s * t))) 1); [discriminate|].
    constructor; [lra|]. apply IH. assumption.
  - intros H. replace (filter _ _) with (@nil R); [reflexivity|].
    induction H as [|t tau Ht _ IH]; [reflexivity|]. cbn [map filter]. destruct (Rle_dec (exp (- (s * t))) 1); [lra|]. assumption.
Qed.

Lemma C27_defined_aux : forall parts fuel tau nbins desired s, (0 < nbins)%nat -> scaled_by parts fuel tau desired s ->
  (flux_pdf parts fuel tau nbins desired = None <-> Forall (fun t => 1 < exp (- (s * t))) tau).
Proof.
  intros parts fuel tau nbins desired s Hn Hs. rewrite (flux_pdf_eq _ _ _ _ _ _ Hn Hs), <- nothing_counted.
  destruct (Req_EM_T (count_upto (fluxes s tau) 1) 0); split; intros; try assumption; try reflexivity; try discriminate; contradiction.
Qed.

Lemma edge_width : forall n i, (0 < n)%nat -> edge n (S i) - edge n i = / INR n.
Proof. intros n i Hn. unfold edge. rewrite S_INR. field. apply not_0_INR. lia. Qed.

Lemma C27_density_aux : forall parts fuel tau nbins desired s centres pdf, scaled_by parts fuel tau desired s ->
  flux_pdf parts fuel tau nbins desired = Some (centres, pdf) ->
  length centres = nbins /\ length pdf = nbins /\
  (exists total, number (fun f => f <= 1) (map (fun t => exp (- (s * t))) tau) total /\ (0 < total)%nat /\
    forall i, (i < nbins)%nat -> nth i centres 0 = (INR i + 1 / 2) / INR nbins /\
      exists m, number (in_bin nbins i) (map (fun t => exp (- (s * t))) tau) m /\
        nth i pdf 0 = INR m / INR total * INR nbins) /\
  Forall (fun p => 0 <= p) pdf /\ rsum (map (fun p => p * (1 / INR nbins)) pdf) = 1.
Proof.
  intros parts fuel tau nbins desired s centres pdf Hs H.
  destruct (Nat.eq_dec nbins 0) as [->|Hn0]; [discriminate|]. assert (Hn : (0 < nbins)%nat) by lia.
  assert (HN : 0 < INR nbins) by (apply lt_0_INR; assumption).
  rewrite (flux_pdf_eq _ _ _ _ _ _ Hn Hs) in H. destruct (Req_EM_T (count_upto (fluxes s tau) 1) 0) as [|Hc]; [discriminate|].
  apply pair_inj in H. destruct H as (<- & <-). rewrite !map_length, !seq_length.
  assert (Hpos : 0 < count_upto (fluxes s tau) 1).
  { unfold count_upto in *. pose proof (pos_INR (length (filter (fun f => if Rle_dec f 1 then true else false) (fluxes s tau)))). lra. }
  split; [reflexivity|]. split; [reflexivity|]. split.
  - exists (length (filter (fun f => if Rle_dec f 1 then true else false) (fluxes s tau))). split.
    { apply number_filter. intros f. destruct (Rle_dec f 1); split; intros; try assumption; try reflexivity; try discriminate; contradiction. }
    split. { apply INR_lt. exact Hpos. }
    intros i Hi. rewrite !map_seq_nth by assumption. split.
    + unfold edge. rewrite S_INR. field. lra.
    + destruct (number_exists _ (in_bin nbins i) (in_bin_dec nbins i) (fluxes s tau)) as (m & Hm). exists m. split; [exact Hm|].
      rewrite (bin_number _ _ _ _ Hi Hm). rewrite edge_width by assumption. unfold count_upto in *. field. lra.
  - split.
    + apply Forall_forall. intros p Hp. apply in_map_iff in Hp. destruct Hp as (i & <- & Hi). apply in_seq in Hi.
      destruct (number_exists _ (in_bin nbins i) (in_bin_dec nbins i) (fluxes s tau)) as (m & Hm).
      rewrite (bin_number nbins i _ m) by (lia || assumption). rewrite edge_width by assumption.
      apply Rmult_le_pos; [|apply Rlt_le, Rinv_0_lt_compat; assumption].
      apply Rmult_le_pos; [apply pos_INR|]. rewrite Rinv_inv. lra.
    + rewrite map_map.
      rewrite (rsum_map_ext _ _ (fun i => / count_upto (fluxes s tau) 1 * (cumulative (fluxes s tau) nbins (S i) - cumulative (fluxes s tau) nbins i))).
      * rewrite rsum_map_scal, <- histogram_eq, histogram_sum by assumption. rewrite positive_below by apply fluxes_pos.
        rewrite Rminus_0_r. apply Rinv_l. assumption.
      * intros i _. rewrite edge_width by assumption. field. lra.
Qed.

Lemma C27_all_counted_aux : forall s tau, 0 <= s -> Forall (fun t => 0 <= t) tau ->
  number (fun f => f <= 1) (map (fun t => exp (- (s * t))) tau) (length tau).
Proof.
  intros s tau Hs H. rewrite <- (map_length (fun t => exp (- (s * t))) tau). apply number_all.
  apply Forall_forall. intros f Hf. apply in_map_iff in Hf. destruct Hf as (t & <- & Ht).
  rewrite Forall_forall in H. specialize (H t Ht).
  rewrite <- exp_0. destruct (Rle_lt_or_eq_dec 0 (s * t) (Rmult_le_pos _ _ Hs H)) as [Hp| <-].
  - left. apply exp_increasing. lra.
  - right. f_equal. ring.
Qed.

Lemma counts_perm : forall l l' x, Permutation l l' -> count_below l x = count_below l' x /\ count_upto l x = count_upto l' x.
Proof.
  intros l l' x P. unfold count_below, count_upto. split; f_equal; apply Permutation_length.
  - induction P; cbn [filter]; [constructor| | |eapply Permutation_trans; eassumption];
      repeat match goal with |- context [Rlt_dec ?a ?b] => destruct (Rlt_dec a b) end; try constructor; try assumption; apply Permutation_refl.
  - induction P; cbn [filter]; [constructor| | |eapply Permutation_trans; eassumption];
      repeat match goal with |- context [Rle_dec ?a ?b] => destruct (Rle_dec a b) end; try constructor; try assumption; apply Permutation_refl.
Qed.

Lemma C27_order_aux : forall parts parts' fuel tau tau' nbins desired,
  tau <> [] -> divided tau parts -> divided tau' parts' -> Permutation tau tau' ->
  flux_pdf parts fuel tau nbins desired = flux_pdf parts' fuel tau' nbins desired.
Proof.
  intros parts parts' fuel tau tau' nbins desired Hne D D' P.
  assert (Hne' : tau' <> []) by (intros ->; apply Hne, Permutation_nil, Permutation_sym; assumption).
  destruct (Nat.eq_dec nbins 0) as [->|Hn0]; [reflexivity|]. assert (Hn : (0 < nbins)%nat) by lia.
  assert (G : forall parts parts' tau tau', tau <> [] -> divided tau parts -> divided tau' parts' -> Permutation tau tau' ->
     forall out, flux_pdf parts fuel tau nbins desired = Some out -> flux_pdf parts' fuel tau' nbins desired = Some out).
  { clear. intros parts parts' tau tau' Hne D D' P out H.
    destruct (Nat.eq_dec nbins 0) as [->|Hn0]; [discriminate|]. assert (Hn : (0 < nbins)%nat) by lia.
    assert (Hs : exists s, scaled_by parts fuel tau desired s).
    { destruct desired as [d|]; [|exists 1; reflexivity]. unfold flux_pdf in H. destruct nbins; [discriminate|].
      destruct (scale_and_mean parts fuel tau (Some d)) as [(s, m)|] eqn:E; [|discriminate].
      apply scale_and_mean_inv in E. exists s. apply E. }
    destruct Hs as (s & Hs). pose proof (scaled_by_perm _ _ _ _ _ _ _ Hne D D' P Hs) as Hs'.
    rewrite (flux_pdf_eq _ _ _ _ _ _ Hn Hs) in H. rewrite (flux_pdf_eq _ _ _ _ _ _ Hn Hs').
    assert (Pf : Permutation (fluxes s tau) (fluxes s tau')) by (apply Permutation_map; assumption).
    rewrite <- (proj2 (counts_perm _ _ 1 Pf)).
    destruct (Req_EM_T (count_upto (fluxes s tau) 1) 0); [discriminate|]. rewrite <- H. f_equal. f_equal. apply map_ext. intros i.
    assert (Cu : forall j, cumulative (fluxes s tau') nbins j = cumulative (fluxes s tau) nbins j).
    { intros j. unfold cumulative. destruct (counts_perm _ _ 1 Pf) as (_ & ->). destruct (counts_perm _ _ (edge nbins j) Pf) as (-> & _). reflexivity. }
    rewrite !Cu. reflexivity. }
  apply option_ext; intros out H.
  - apply (G parts parts' tau tau'); assumption.
  - apply (G parts' parts tau' tau); try assumption. apply Permutation_sym. assumption.
Qed.

(** ** Three dimensions *)

Lemma batch3_spec : forall A (l : list A) n, (forall i, (i < 3)%nat -> length (batch 3 i l) = n) ->
  length l = (3 * n)%nat.
Proof.
  intros A l n H. rewrite <- (batches_cover A 3 l) by lia. cbn [seq flat_map]. rewrite !app_length. cbn [length].
  rewrite !H by lia. lia.
Qed.

Lemma batch3_lengths : forall A (l : list A) n i, (i < 3)%nat -> length l = (3 * n)%nat -> length (batch 3 i l) = n.
Proof.
  intros A l n i Hi L. unfold batch. rewrite L.
  replace (i * (3 * n) / 3)%nat with (i * n)%nat by (replace (i * (3 * n))%nat with (i * n * 3)%nat by lia; symmetry; apply Nat.div_mul; lia).
  replace ((i + 1) * (3 * n) / 3)%nat with ((i + 1) * n)%nat
    by (replace ((i + 1) * (3 * n))%nat with ((i + 1) * n * 3)%nat by lia; symmetry; apply Nat.div_mul; lia).
  rewrite Nat.min_l by nia. rewrite slice_length by nia. nia.
Qed.

Definition contrasts (m : R) (rows : list (list R)) : list R := concat (map (fun r => map (fun t => exp (- t) / m - 1) r) rows).

Lemma contrast_1 : forall m row, flux_contrast 1 m row = map (fun t => exp (- t) / m - 1) row.
Proof. intros. unfold flux_contrast. apply map_ext. intros t. do 3 f_equal. ring. Qed.

Lemma C28_blocks_aux : forall power3d parts fuel tau npix boxsize desired s,
  scaled_by parts fuel (concat tau) desired s -> mean_used (concat tau) desired <> 0 ->
  (forall nt, length tau = (3 * (nt * nt))%nat ->
    exists b0 b1 b2, map (map (fun t => t * s)) tau = b0 ++ b1 ++ b2 /\
      length b0 = (nt * nt)%nat /\ length b1 = (nt * nt)%nat /\ length b2 = (nt * nt)%nat /\
      let cat b := combine (coords nt npix boxsize) (contrasts (mean_used (concat tau) desired) b) in
      flux_power_3d power3d parts fuel tau npix boxsize desired =
      Some (map (fun p => p / 3) (add_lists (add_lists (power3d (1, 0, 0) (cat b0)) (power3d (0, 1, 0) (cat b1))) (power3d (0, 0, 1) (cat b2))),
            map (map (fun t => t * s)) tau)) /\
  ((forall nt, length tau <> (3 * (nt * nt))%nat) -> flux_power_3d power3d parts fuel tau npix boxsize desired = None).
Proof.
  intros power3d parts fuel tau npix boxsize desired s Hs Hm.
  unfold flux_power_3d. rewrite (scale_and_mean_some _ _ _ _ _ Hs). destruct (Req_EM_T _ 0); [contradiction|].
  assert (Et : (match desired with Some _ => map (map (fun t => t * s)) tau | None => tau end) = map (map (fun t => t * s)) tau).
  { destruct desired; [reflexivity|]. cbn [scaled_by] in Hs. subst s. symmetry. rewrite <- (map_id tau) at 2. apply map_ext. intros r.
    rewrite <- (map_id r) at 2. apply map_ext. intros; ring. }
  rewrite Et. set (tau' := map (map (fun t => t * s)) tau). assert (L : length tau' = length tau) by apply map_length.
  cbv zeta. split.
  - intros nt Hl. assert (Esq : Nat.sqrt (length tau / 3) = nt).
    { rewrite Hl, Nat.mul_comm, Nat.div_mul by lia. apply Nat.sqrt_square. }
    rewrite Esq.
    assert (Lb : forall i, (i < 3)%nat -> length (batch 3 i tau') = (nt * nt)%nat) by (intros; apply batch3_lengths; [assumption|lia]).
    exists (batch 3 0 tau'), (batch 3 1 tau'), (batch 3 2 tau'). split.
    { rewrite <- (batches_cover _ 3 tau') at 1 by lia. cbn [seq flat_map]. rewrite app_nil_r. reflexivity. }
    split; [apply Lb; lia|]. split; [apply Lb; lia|]. split; [apply Lb; lia|].
    assert (F : forallb (fun i => Nat.eqb (length (batch 3 i tau')) (nt * nt)) (seq 0 3) = true).
    { apply forallb_forall. intros i Hi. apply in_seq in Hi. apply Nat.eqb_eq. apply Lb. lia. }
    rewrite F. unfold contrasts. cbn [los_vector].
    rewrite !(map_ext (flux_contrast 1 (mean_used (concat tau) desired)) _ (contrast_1 _)). reflexivity.
  - intros Hno. destruct (forallb _ (seq 0 3)) eqn:F; [|reflexivity]. exfalso.
    rewrite forallb_forall in F. apply (Hno (Nat.sqrt (length tau / 3))). rewrite <- L at 1. apply batch3_spec.
    intros i Hi. apply Nat.eqb_eq. apply F. apply in_seq. lia.
Qed.

Lemma nth_flat_map : forall (A : Type) (f : nat -> list A) m n a r, (forall i, length (f i) = m) -> (a < n)%nat -> (r < m)%nat ->
  nth_error (flat_map f (seq 0 n)) (a * m + r) = nth_error (f a) r.
Proof.
  intros A f m n a r Hf Ha Hr.
  assert (L : forall k b, length (flat_map f (seq b k)) = (k * m)%nat).
  { induction k as [|k IH]; intros b; [reflexivity|]. cbn [seq flat_map]. rewrite app_length, Hf, IH. lia. }
  replace n with (a + (1 + (n - a - 1)))%nat by lia. rewrite !seq_app, !flat_map_app. cbn [seq flat_map plus].
  rewrite nth_error_app2 by (rewrite L; lia). rewrite L. replace (a * m + r - a * m)%nat with r by lia.
  rewrite nth_error_app1 by (rewrite app_nil_r, Hf; assumption). rewrite app_nil_r. reflexivity.
Qed.

Lemma C53_coords_aux : forall nt npix boxsize a b p, (a < nt)%nat -> (b < nt)%nat -> (p < npix)%nat ->
  nth_error (coords nt npix boxsize) ((a * nt + b) * npix + p) =
  Some (INR a * boxsize / INR nt, INR b * boxsize / INR nt, INR p * boxsize / INR npix).
Proof.
  intros nt npix boxsize a b p Ha Hb Hp. unfold coords.
  assert (L2 : forall (g : nat -> nat -> R * R * R) n m, length (flat_map (fun b => map (g b) (seq 0 m)) (seq 0 n)) = (n * m)%nat).
  { intros g n m. generalize 0%nat at 2. induction n as [|n IH]; intros c; [reflexivity|]. cbn [seq flat_map].
    rewrite app_length, map_length, seq_length, IH. lia. }
  replace ((a * nt + b) * npix + p)%nat with (a * (nt * npix) + (b * npix + p))%nat by lia.
  rewrite nth_flat_map with (m := (nt * npix)%nat); [|intros; apply L2|assumption|nia].
  rewrite nth_flat_map with (m := npix); [|intros; rewrite map_length, seq_length; reflexivity|assumption|assumption].
  rewrite nth_error_map. rewrite (nth_error_nth' (seq 0 npix) 0%nat) by (rewrite seq_length; assumption).
  rewrite seq_nth by assumption. reflexivity.
Qed.

Lemma nth_concat : forall (A : Type) n (rows : list (list A)) r p row, Forall (fun x => length x = n) rows ->
  nth_error rows r = Some row -> (p < n)%nat -> nth_error (concat rows) (r * n + p) = nth_error row p.
Proof.
  intros A n rows r p row H. revert r. induction H as [|x rows Hx _ IH]; intros r Hr Hp; [destruct r; discriminate|].
  cbn [concat]. destruct r as [|r].
  - injection Hr as ->. rewrite Nat.mul_0_l. cbn [plus]. apply nth_error_app1. lia.
  - cbn [nth_error] in Hr. rewrite nth_error_app2 by lia. rewrite Hx.
    replace (S r * n + p - n)%nat with (r * n + p)%nat by lia. apply IH; assumption.
Qed.

Lemma nth_combine : forall (A B : Type) (la : list A) (lb : list B) i a b,
  nth_error la i = Some a -> nth_error lb i = Some b -> nth_error (combine la lb) i = Some (a, b).
Proof.
  induction la as [|x la IH]; intros [|y lb] [|i] a b Ha Hb; try discriminate; cbn [combine nth_error] in *.
  - injection Ha as ->. injection Hb as ->. reflexivity.
  - apply IH; assumption.
Qed.

Lemma C53_aux : forall power3d parts fuel tau nt npix boxsize desired s,
  rectangular npix tau -> length tau = (3 * (nt * nt))%nat ->
  scaled_by parts fuel (concat tau) desired s -> mean_used (concat tau) desired <> 0 ->
  exists c0 c1 c2,
    flux_power_3d power3d parts fuel tau npix boxsize desired =
    Some (map (fun p => p / 3) (add_lists (add_lists (power3d (1, 0, 0) c0) (power3d (0, 1, 0) c1)) (power3d (0, 0, 1) c2)),
          map (map (fun t => t * s)) tau) /\
    forall i cat, nth_error [c0; c1; c2] i = Some cat ->
      forall a b p row t, (a < nt)%nat -> (b < nt)%nat -> (p < npix)%nat ->
        nth_error tau (i * (nt * nt) + a * nt + b) = Some row -> nth_error row p = Some t ->
        nth_error cat ((a * nt + b) * npix + p) =
          Some (INR a * boxsize / INR nt, INR b * boxsize / INR nt, INR p * boxsize / INR npix,
                exp (- (s * t)) / mean_used (concat tau) desired - 1).
Proof.
  intros power3d parts fuel tau nt npix boxsize desired s Hr Hl Hs Hm.
  destruct (C28_blocks_aux power3d parts fuel tau npix boxsize desired s Hs Hm) as (H & _).
  destruct (H nt Hl) as (b0 & b1 & b2 & Et & L0 & L1 & L2 & E). clear H. cbv zeta in E.
  eexists. eexists. eexists. split; [exact E|]. clear E.
  set (m := mean_used (concat tau) desired) in *.
  assert (Rt : Forall (fun x => length x = npix) (map (map (fun t => t * s)) tau)).
  { apply Forall_forall. intros x Hx. apply in_map_iff in Hx. destruct Hx as (r & <- & Hin). rewrite map_length.
    unfold rectangular in Hr. rewrite Forall_forall in Hr. apply Hr. assumption. }
  rewrite Et in Rt. apply Forall_app in Rt. destruct Rt as (R0 & Rt). apply Forall_app in Rt. destruct Rt as (R1 & R2).
  assert (G : forall blk a b p row t, Forall (fun x => length x = npix) blk -> (a < nt)%nat -> (b < nt)%nat -> (p < npix)%nat ->
     nth_error blk (a * nt + b) = Some (map (fun t => t * s) row) -> nth_error row p = Some t ->
     nth_error (combine (coords nt npix boxsize) (contrasts m blk)) ((a * nt + b) * npix + p) =
       Some (INR a * boxsize / INR nt, INR b * boxsize / INR nt, INR p * boxsize / INR npix, exp (- (s * t)) / m - 1)).
  { clear. intros blk a b p row t HR Ha Hb Hp Hrow Ht. apply nth_combine; [apply C53_coords_aux; assumption|].
    unfold contrasts. rewrite nth_concat with (row := map (fun t => exp (- t) / m - 1) (map (fun t => t * s) row)).
    - rewrite map_map, nth_error_map, Ht. cbn [option_map]. do 4 f_equal. ring.
    - apply Forall_forall. intros x Hx. apply in_map_iff in Hx. destruct Hx as (r & <- & Hin). rewrite map_length.
      rewrite Forall_forall in HR. apply HR. assumption.
    - rewrite nth_error_map, Hrow. reflexivity.
    - assumption. }
  intros i cat Hc a b p row t Ha Hb Hp Hrow Ht.
  assert (Hrow' : nth_error (b0 ++ b1 ++ b2) (i * (nt * nt) + a * nt + b) = Some (map (fun t => t * s) row)).
  { rewrite <- Et, nth_error_map, Hrow. reflexivity. }
  assert (Hab : (a * nt + b < nt * nt)%nat) by nia.
  destruct i as [|[|[|i]]]; cbn [nth_error] in Hc; try (destruct i; discriminate Hc); injection Hc as <-; apply (G _ a b p row t); try assumption.
  - rewrite nth_error_app1 in Hrow' by lia. exact Hrow'.
  - rewrite nth_error_app2 in Hrow' by lia. rewrite nth_error_app1 in Hrow' by lia.
    replace (1 * (nt * nt) + a * nt + b - length b0)%nat with (a * nt + b)%nat in Hrow' by lia. exact Hrow'.
  - rewrite nth_error_app2 in Hrow' by lia. rewrite nth_error_app2 in Hrow' by lia.
    replace (2 * (nt * nt) + a * nt + b - length b0 - length b1)%nat with (a * nt + b)%nat in Hrow' by lia. exact Hrow'.
Qed.

Lemma C53_los_aux : forall power3d parts fuel tau nt npix boxsize desired s,
  rectangular npix tau -> length tau = (3 * (nt * nt))%nat ->
  scaled_by parts fuel (concat tau) desired s -> mean_used (concat tau) desired <> 0 ->
  exists c0 c1 c2 tau',
    flux_power_3d power3d parts fuel tau npix boxsize desired =
    Some (map (fun p => p / 3) (add_lists (add_lists (power3d (1, 0, 0) c0) (power3d (0, 1, 0) c1)) (power3d (0, 0, 1) c2)), tau') /\
    forall cat, In cat [c0; c1; c2] ->
      forall spectrum p, (spectrum < nt * nt)%nat -> (S p < npix)%nat ->
      exists x y z v x' y' z' v', nth_error cat (spectrum * npix + p) = Some (x, y, z, v) /\
        nth_error cat (spectrum * npix + S p) = Some (x', y', z', v') /\
        x' - x = 0 /\ y' - y = 0 /\ z' - z = boxsize / INR npix.
Proof.
  intros power3d parts fuel tau nt npix boxsize desired s Hr Hl Hs Hm.
  destruct (C53_aux power3d parts fuel tau nt npix boxsize desired s Hr Hl Hs Hm) as (c0 & c1 & c2 & E & H).
  exists c0, c1, c2. eexists. split; [exact E|]. clear E. intros cat Hc spectrum p Hsp Hp.
  apply In_nth_error in Hc. destruct Hc as (i & Hi).
  assert (Hi3 : (i < 3)%nat) by (apply (nth_error_Some [c0; c1; c2]); congruence).
  assert (Hnt : (0 < nt)%nat) by nia.
  assert (Hb : (spectrum mod nt < nt)%nat) by (apply Nat.mod_upper_bound; lia).
  assert (Ha : (spectrum / nt < nt)%nat) by (apply Nat.div_lt_upper_bound; lia).
  assert (Es : spectrum = (spectrum / nt * nt + spectrum mod nt)%nat) by (rewrite Nat.mul_comm; apply Nat.div_mod; lia).
  destruct (nth_error tau (i * (nt * nt) + spectrum / nt * nt + spectrum mod nt)) as [row|] eqn:Er.
  2: { apply nth_error_None in Er. assert (i * (nt * nt) <= 2 * (nt * nt))%nat by (apply Nat.mul_le_mono_r; lia). lia. }
  assert (Lr : length row = npix).
  { unfold rectangular in Hr. rewrite Forall_forall in Hr. apply Hr. eapply nth_error_In. exact Er. }
  destruct (nth_error row p) as [t|] eqn:Et; [|apply nth_error_None in Et; lia].
  destruct (nth_error row (S p)) as [t'|] eqn:Et'; [|apply nth_error_None in Et'; lia].
  pose proof (H i cat Hi _ _ p row t Ha Hb ltac:(lia) Er Et) as H1.
  pose proof (H i cat Hi _ _ (S p) row t' Ha Hb Hp Er Et') as H2.
  rewrite <- Es in H1, H2.
  do 8 eexists. split; [exact H1|]. split; [exact H2|].
  assert (0 < INR npix) by (apply lt_0_INR; lia).
  split; [ring|]. split; [ring|]. rewrite S_INR. field. lra.
Qed.
