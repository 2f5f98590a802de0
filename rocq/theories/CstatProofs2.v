(** Proofs about the flux power spectrum and the flux PDF of the C extractor. *)
From Coq Require Import ZArith List Lia Reals Lra.
From Verif Require Import AbsorptionSpec AbsorptionProofs CstatModel CstatSpec CstatProofs.
Import ListNotations.
Local Open Scope R_scope.

(** ** The power spectrum *)

Definition mode_row (fft : list R -> nat -> R * R) (tau_eff : R) (nbins : nat) (row : list R) (k : nat) : R :=
  mode_power nbins (fft (map (fun t => exp (- t) / exp (- tau_eff) - 1) row) k).

Lemma npower_ge : forall nbins, (5 <= nbins)%nat -> (3 <= npower nbins)%nat.
Proof. intros nbins H. unfold npower. apply Nat.div_le_lower_bound; lia. Qed.

Lemma npower_lt : forall nbins, (nbins < 5)%nat -> (npower nbins < 3)%nat.
Proof. intros nbins H. unfold npower. apply Nat.div_lt_upper_bound; lia. Qed.

Lemma window3 : forall a i, window_mean 1 3 a i =
  (a (Z.of_nat i - 1)%Z + a (Z.of_nat i) + a (Z.of_nat i + 1)%Z) / 3.
Proof.
  intros a i. unfold window_mean, zsum, rsum. cbn [Nat.mul Nat.add seq map fold_right].
  replace (Z.of_nat i + (Z.of_nat 0 - Z.of_nat 1))%Z with (Z.of_nat i - 1)%Z by lia.
  replace (Z.of_nat i + (Z.of_nat 1 - Z.of_nat 1))%Z with (Z.of_nat i) by lia.
  replace (Z.of_nat i + (Z.of_nat 2 - Z.of_nat 1))%Z with (Z.of_nat i + 1)%Z by lia. field.
Qed.

Lemma nth_map_seq : forall (f : nat -> R) b n k, (k < n)%nat -> nth k (map f (seq b n)) 0 = f (b + k)%nat.
Proof.
  intros f b n k H. rewrite (nth_indep _ 0 (f 0%nat)) by (rewrite map_length, seq_length; lia).
  rewrite map_nth, seq_nth by lia. reflexivity.
Qed.

Lemma powerspectrum_shape : forall dims F,
  powerspectrum dims F =
  (fst (F (if Nat.even dims then Nat.div dims 2 else 0%nat)) ^ 2 / (INR dims * INR dims)) ::
  map (fun k => mode_power dims (F k)) (seq 1 (npower dims - 1)).
Proof.
  intros dims F. unfold powerspectrum. cbn [map]. rewrite map_map. unfold mode_power. rewrite <- mult_INR.
  destruct (Nat.even dims); reflexivity.
Qed.

Lemma one_power_spec : forall fft tau_eff nbins junk row, (5 <= nbins)%nat -> length junk = (npower nbins - 1)%nat ->
  exists q, one_power fft tau_eff nbins junk row = Some q /\ length q = npower nbins /\
    let P := mode_row fft tau_eff nbins row in
    let K := npower nbins in
    nth 0 q 0 = fst (fft (map (fun t => exp (- t) / exp (- tau_eff) - 1) row)
                  (if Nat.even nbins then Nat.div nbins 2 else 0%nat)) ^ 2 / (INR nbins * INR nbins) /\
    nth 1 q 0 = (2 * P 1%nat + P 2%nat) / 3 /\
    (forall k, (2 <= k < K - 1)%nat -> nth k q 0 = (P (k - 1)%nat + P k + P (k + 1)%nat) / 3) /\
    nth (K - 1) q 0 = (P (K - 2)%nat + P (K - 1)%nat) / 3.
Proof.
  intros fft tau_eff nbins junk row Hn Hj. pose proof (npower_ge nbins Hn) as HK.
  unfold one_power. rewrite powerspectrum_shape.
  set (rest := map _ (seq 1 (npower nbins - 1))).
  assert (Lr : length rest = (npower nbins - 1)%nat) by (unfold rest; rewrite map_length, seq_length; reflexivity).
  destruct (C48_window_aux rest junk 1 3 (or_introl eq_refl)) as (sm & E & L & N); [congruence|lia|].
  replace (Z.of_nat (npower nbins) - 1)%Z with (Z.of_nat (length rest)) by lia. rewrite E.
  eexists. split; [reflexivity|]. split; [cbn [length]; lia|].
  cbv zeta. split; [reflexivity|].
  set (P := mode_row fft tau_eff nbins row).
  assert (X : forall m, (0 <= m < Z.of_nat (length rest))%Z -> extended rest m = P (S (Z.to_nat m))).
  { intros m Hm. unfold extended. destruct (m <? 0)%Z eqn:B; [apply Z.ltb_lt in B; lia|].
    unfold rest. rewrite nth_map_seq by lia. reflexivity. }
  assert (X0 : extended rest (-1) = P 1%nat).
  { unfold extended. cbn [Z.ltb Z.compare]. unfold rest. rewrite nth_map_seq by lia. reflexivity. }
  assert (X1 : extended rest (Z.of_nat (length rest)) = 0).
  { unfold extended. destruct (_ <? 0)%Z eqn:B; [apply Z.ltb_lt in B; lia|]. apply nth_overflow. lia. }
  assert (Y : forall k, (1 <= k < npower nbins)%nat -> forall a, nth k (a :: sm) 0 =
     (extended rest (Z.of_nat k - 2) + extended rest (Z.of_nat k - 1) + extended rest (Z.of_nat k)) / 3).
  { intros k Hk a. destruct k as [|k]; [lia|]. cbn [nth]. rewrite N by lia. rewrite window3.
    replace (Z.of_nat (S k) - 2)%Z with (Z.of_nat k - 1)%Z by lia.
    replace (Z.of_nat (S k) - 1)%Z with (Z.of_nat k)%Z by lia.
    replace (Z.of_nat (S k)) with (Z.of_nat k + 1)%Z by lia. reflexivity. }
  split; [|split].
  - rewrite Y by lia. change (Z.of_nat 1 - 2)%Z with (-1)%Z. rewrite X0, !X by lia.
    change (S (Z.to_nat (Z.of_nat 1 - 1))) with 1%nat. change (S (Z.to_nat (Z.of_nat 1))) with 2%nat. field.
  - intros k Hk. rewrite Y by lia. rewrite !X by lia.
    replace (S (Z.to_nat (Z.of_nat k - 2))) with (k - 1)%nat by lia.
    replace (S (Z.to_nat (Z.of_nat k - 1))) with k by lia.
    replace (S (Z.to_nat (Z.of_nat k))) with (k + 1)%nat by lia. reflexivity.
  - rewrite Y by lia. replace (Z.of_nat (npower nbins - 1)) with (Z.of_nat (length rest)) by lia. rewrite X1, !X by lia.
    replace (S (Z.to_nat (Z.of_nat (length rest) - 2))) with (npower nbins - 2)%nat by lia.
    replace (S (Z.to_nat (Z.of_nat (length rest) - 1))) with (npower nbins - 1)%nat by lia. field.
Qed.

Lemma one_power_short : forall fft tau_eff nbins junk row, (nbins < 5)%nat -> length junk = (npower nbins - 1)%nat ->
  one_power fft tau_eff nbins junk row = None.
Proof.
  intros fft tau_eff nbins junk row Hn Hj. pose proof (npower_lt nbins Hn) as HK.
  unfold one_power. rewrite powerspectrum_shape.
  set (rest := map _ (seq 1 (npower nbins - 1))).
  assert (Lr : length rest = (npower nbins - 1)%nat) by (unfold rest; rewrite map_length, seq_length; reflexivity).
  destruct (Nat.eq_dec (npower nbins) 0) as [Z0|NZ].
  - assert (rest = []) as -> by (destruct rest; [reflexivity|cbn [length] in *; lia]).
    assert (junk = []) as -> by (destruct junk; [reflexivity|cbn [length] in *; lia]).
    rewrite Z0. reflexivity.
  - assert (E : smooth rest junk (Z.of_nat (length rest)) 3 = None).
    { apply (C48_short_aux rest junk 1 3 (or_introl eq_refl)); lia. }
    replace (Z.of_nat (npower nbins) - 1)%Z with (Z.of_nat (length rest)) by lia. rewrite E. reflexivity.
Qed.

Lemma add_lists_spec : forall a b n, length a = n -> length b = n ->
  length (add_lists a b) = n /\ forall k, nth k (add_lists a b) 0 = nth k a 0 + nth k b 0.
Proof.
  induction a as [|x a IH]; intros [|y b] n Ha Hb; cbn [length] in *; try lia.
  - split; [assumption|]. intros [|k]; simpl; ring.
  - destruct (IH b (n - 1)%nat) as (L & N); [lia|lia|]. cbn [add_lists length]. split; [lia|].
    intros [|k]; cbn [nth]; [reflexivity|apply N].
Qed.

Lemma power_sum : forall (one : nat -> option (list R)) (q : nat -> list R) n js acc,
  (forall j, In j js -> one j = Some (q j) /\ length (q j) = n) -> length acc = n ->
  exists l, fold_left (fun acc j => match acc, one j with Some a, Some p => Some (add_lists a p) | _, _ => None end)
      js (Some acc) = Some l /\ length l = n /\
    forall k, nth k l 0 = nth k acc 0 + rsum (map (fun j => nth k (q j) 0) js).
Proof.
  intros one q n. induction js as [|j js IH]; intros acc H Ha.
  - exists acc. split; [reflexivity|]. split; [assumption|]. intros k. unfold rsum. simpl. ring.
  - destruct (H j (or_introl eq_refl)) as (E & L). cbn [fold_left]. rewrite E.
    destruct (add_lists_spec acc (q j) n Ha L) as (La & Na).
    destruct (IH (add_lists acc (q j))) as (l & El & Ll & Nl); [intros; apply H; right; assumption|assumption|].
    exists l. split; [assumption|]. split; [assumption|]. intros k. rewrite Nl, Na. unfold rsum. cbn [map fold_right]. ring.
Qed.

Lemma power_sum_none : forall (one : nat -> option (list R)) js,
  fold_left (fun acc j => match acc, one j with Some a, Some p => Some (add_lists a p) | _, _ => None end)
      js None = None.
Proof. intros one. induction js; [reflexivity|assumption]. Qed.

Lemma row_scaled : forall nbins j s tau, row nbins j (map (fun t => t * s) tau) = map (fun t => t * s) (sightline nbins j tau).
Proof. intros. unfold row, sightline. rewrite skipn_map, firstn_map. reflexivity. Qed.

Lemma contrast_scaled : forall s tau_eff r,
  map (fun t => exp (- t) / exp (- tau_eff) - 1) (map (fun t => t * s) r) = contrast s tau_eff r.
Proof. intros. unfold contrast. rewrite map_map. apply map_ext. intros t. rewrite (Rmult_comm s t). reflexivity. Qed.

Lemma C49_power_aux : forall fft junk tau s tau_eff numlos nbins, (1 <= numlos)%nat -> (5 <= nbins)%nat ->
  (forall j, length (junk j) = (npower nbins - 1)%nat) ->
  exists p, calc_power_spectra fft junk tau s tau_eff numlos nbins = (Some p, map (fun t => t * s) tau) /\
    is_power fft (if Nat.even nbins then Nat.div nbins 2 else 0%nat) s tau_eff numlos nbins tau p.
Proof.
  intros fft junk tau s tau_eff numlos nbins Hl Hn Hj. unfold calc_power_spectra.
  set (one := fun j => one_power fft tau_eff nbins (junk j) (row nbins j (map (fun t => t * s) tau))).
  assert (Ex : forall j, exists q, one j = Some q) .
  { intros j. destruct (one_power_spec fft tau_eff nbins (junk j) (row nbins j (map (fun t => t * s) tau)) Hn (Hj j))
      as (q & E & _). exists q. exact E. }
  set (q := fun j => match one j with Some l => l | None => [] end).
  assert (Q : forall j, one j = Some (q j)).
  { intros j. destruct (Ex j) as (l & E). unfold q. rewrite E. reflexivity. }
  assert (Spec : forall j, _) by
    (intros j; exact (one_power_spec fft tau_eff nbins (junk j) (row nbins j (map (fun t => t * s) tau)) Hn (Hj j))).
  assert (Lq : forall j, length (q j) = npower nbins).
  { intros j. destruct (Spec j) as (l & E & L & _). fold (one j) in E. rewrite Q in E. injection E as ->. assumption. }
  destruct (power_sum one q (npower nbins) (seq 0 numlos) (repeat 0 (npower nbins))) as (l & El & Ll & Nl).
  { intros j _. split; [apply Q|apply Lq]. } { apply repeat_length. }
  fold one. unfold one in El. rewrite El. cbn [option_map].
  eexists. split; [reflexivity|].
  assert (Nth : forall k, nth k (map (fun x => x / INR numlos) l) 0 = sightline_mean numlos (fun j => nth k (q j) 0)).
  { intros k. unfold sightline_mean. destruct (le_lt_dec (length l) k) as [G|G].
    - rewrite nth_overflow by (rewrite map_length; assumption).
      assert (Z0 : rsum (map (fun j => nth k (q j) 0) (seq 0 numlos)) = 0).
      { specialize (Nl k). rewrite nth_overflow in Nl by assumption.
        rewrite (nth_overflow (repeat 0 (npower nbins))) in Nl by (rewrite repeat_length; lia). lra. }
      rewrite Z0. unfold Rdiv. ring.
    - rewrite (nth_indep _ 0 (0 / INR numlos)) by (rewrite map_length; assumption).
      rewrite (map_nth (fun x => x / INR numlos)), Nl. rewrite nth_repeat. f_equal. ring. }
  assert (Mext : forall f g, (forall j, f j = g j) -> sightline_mean numlos f = sightline_mean numlos g).
  { intros f g H. unfold sightline_mean. f_equal. f_equal. apply map_ext. exact H. }
  assert (Val : forall j, let P := mode_row fft tau_eff nbins (row nbins j (map (fun t => t * s) tau)) in
    let K := npower nbins in
    nth 0 (q j) 0 = fst (fft (map (fun t => exp (- t) / exp (- tau_eff) - 1) (row nbins j (map (fun t => t * s) tau)))
                  (if Nat.even nbins then Nat.div nbins 2 else 0%nat)) ^ 2 / (INR nbins * INR nbins) /\
    nth 1 (q j) 0 = (2 * P 1%nat + P 2%nat) / 3 /\
    (forall k, (2 <= k < K - 1)%nat -> nth k (q j) 0 = (P (k - 1)%nat + P k + P (k + 1)%nat) / 3) /\
    nth (K - 1) (q j) 0 = (P (K - 2)%nat + P (K - 1)%nat) / 3).
  { intros j. destruct (Spec j) as (l0 & E & _ & V). fold (one j) in E. rewrite Q in E. injection E as ->. exact V. }
  clear Spec. unfold mode_row in Val.
  unfold is_power. change (Nat.div (nbins + 1) 2) with (npower nbins).
  split; [rewrite map_length; assumption|].
  split; [|split; [|split]].
  - rewrite Nth. apply Mext. intros j. destruct (Val j) as (V & _). rewrite V.
    rewrite row_scaled, contrast_scaled. reflexivity.
  - rewrite Nth. apply Mext. intros j. destruct (Val j) as (_ & V & _). rewrite V.
    rewrite row_scaled, contrast_scaled. reflexivity.
  - intros k Hk. rewrite Nth. apply Mext. intros j. destruct (Val j) as (_ & _ & V & _). rewrite (V k Hk).
    rewrite row_scaled, contrast_scaled. reflexivity.
  - rewrite Nth. apply Mext. intros j. destruct (Val j) as (_ & _ & _ & V). rewrite V.
    rewrite row_scaled, contrast_scaled. reflexivity.
Qed.

Lemma C49_power_short_aux : forall fft junk tau s tau_eff numlos nbins, (1 <= numlos)%nat -> (nbins < 5)%nat ->
  (forall j, length (junk j) = (npower nbins - 1)%nat) ->
  fst (calc_power_spectra fft junk tau s tau_eff numlos nbins) = None.
Proof.
  intros fft junk tau s tau_eff numlos nbins Hl Hn Hj. unfold calc_power_spectra. cbn [fst].
  destruct numlos as [|n]; [lia|]. cbn [seq fold_left].
  rewrite one_power_short by (try apply Hj; assumption). rewrite power_sum_none. reflexivity.
Qed.

(** ** The flux PDF *)

Lemma floor_spec : forall x, IZR (c_floor x) <= x < IZR (c_floor x) + 1.
Proof. intros x. unfold c_floor. destruct (archimed x). rewrite minus_IZR. lra. Qed.

Lemma pdf_bin_range : forall s t, (0 <= pdf_bin s t < 20)%Z.
Proof.
  intros s t. unfold pdf_bin. replace (INR pbins) with 20 by (unfold pbins; simpl; lra).
  replace (INR (pbins - 1)) with 19 by (unfold pbins; simpl; lra).
  destruct (Rle_dec 19 (exp (- s * t) * 20)) as [L|L]; [unfold pbins; lia|].
  pose proof (floor_spec (exp (- s * t) * 20)). pose proof (exp_pos (- s * t)).
  split.
  - apply Z.lt_succ_r. apply lt_IZR. rewrite succ_IZR. lra.
  - apply lt_IZR. lra.
Qed.

Lemma pdf_bin_iff : forall s t b, (b < 20)%nat -> (pdf_bin s t = Z.of_nat b <-> transmission_in 20 b s t).
Proof.
  intros s t b Hb. unfold pdf_bin, transmission_in. replace (INR pbins) with 20 by (unfold pbins; simpl; lra).
  replace (INR (pbins - 1)) with 19 by (unfold pbins; simpl; lra). replace (INR 20) with 20 by (simpl; lra).
  replace (- (s * t)) with (- s * t) by ring. set (x := exp (- s * t)).
  assert (D : forall y, y / 20 <= x <-> y <= x * 20) by (intros y; split; intros; lra).
  assert (D' : forall y, x < y / 20 <-> x * 20 < y) by (intros y; split; intros; lra).
  rewrite D, D'. rewrite plus_INR, !INR_IZR_INZ. change (IZR (Z.of_nat 1)) with 1.
  destruct (Rle_dec 19 (x * 20)) as [L|L].
  - change (Z.of_nat (pbins - 1)) with 19%Z. split; intros H.
    + rewrite <- H. split; [assumption|left; lia].
    + destruct H as (H1 & [->|H2]); [reflexivity|].
      assert (19 < IZR (Z.of_nat b) + 1) by lra. rewrite <- (plus_IZR _ 1) in H. apply lt_IZR in H. lia.
  - pose proof (floor_spec (x * 20)) as F. split; intros H.
    + rewrite <- H. split; [apply F|right; apply F].
    + destruct H as (H1 & [->|H2]).
      * exfalso. apply L. apply H1.
      * assert (A : IZR (c_floor (x * 20)) < IZR (Z.of_nat b) + 1) by lra.
        assert (B : IZR (Z.of_nat b) < IZR (c_floor (x * 20)) + 1) by lra.
        rewrite <- (plus_IZR (Z.of_nat b) 1) in A. rewrite <- (plus_IZR (c_floor (x * 20)) 1) in B. apply lt_IZR in A. apply lt_IZR in B. lia.
Qed.

Lemma incr_spec : forall o b, (0 <= b < Z.of_nat (length o))%Z ->
  exists o', c_incr (Some o) b = Some o' /\ length o' = length o /\
    forall k, nth k o' 0 = nth k o 0 + (if Nat.eqb k (Z.to_nat b) then 1 else 0).
Proof.
  intros o b H. unfold c_incr. rewrite c_get_in by assumption. unfold c_put.
  destruct (b <? 0)%Z eqn:E; [apply Z.ltb_lt in E; lia|].
  destruct (put_spec (Z.to_nat b) (nth (Z.to_nat b) o 0 + 1) o ltac:(lia)) as (o' & E' & L & N).
  exists o'. split; [assumption|]. split; [assumption|]. intros k. rewrite N.
  destruct (Nat.eqb_spec k (Z.to_nat b)) as [->|]; ring.
Qed.

Lemma rsum_indicator : forall n b, rsum (map (fun k => if Nat.eqb k b then 1 else 0) (seq 0 n)) = if (b <? n)%nat then 1 else 0.
Proof.
  intros n b. induction n as [|n IH]; [reflexivity|].
  rewrite seq_S, map_app, rsum_app, IH. unfold rsum. cbn [map fold_right Nat.add].
  destruct (Nat.eqb_spec n b), (Nat.ltb_spec b n), (Nat.ltb_spec b (S n)); try lia; try ring.
Qed.

Lemma histogram : forall s tau o, length o = 20%nat ->
  exists o', fold_left (fun o t => c_incr o (pdf_bin s t)) tau (Some o) = Some o' /\ length o' = 20%nat /\
    (forall b, (b < 20)%nat -> exists n, count_of (transmission_in 20 b s) tau n /\ nth b o' 0 = nth b o 0 + INR n) /\
    rsum o' = rsum o + INR (length tau).
Proof.
  intros s. induction tau as [|t tau IH]; intros o Ho.
  - exists o. split; [reflexivity|]. split; [assumption|]. split; [|simpl; ring].
    intros b Hb. exists 0%nat. split; [constructor|]. simpl. ring.
  - pose proof (pdf_bin_range s t) as Hr.
    destruct (incr_spec o (pdf_bin s t)) as (o1 & E1 & L1 & N1); [lia|].
    destruct (IH o1) as (o2 & E2 & L2 & N2 & S2); [lia|]. exists o2. cbn [fold_left]. rewrite E1.
    split; [assumption|]. split; [assumption|]. split.
    + intros b Hb. destruct (N2 b Hb) as (n & C & V). rewrite N1 in V.
      destruct (Nat.eqb_spec b (Z.to_nat (pdf_bin s t))) as [E|E].
      * exists (S n). split; [|rewrite S_INR; lra]. constructor; [|assumption]. apply pdf_bin_iff; lia.
      * exists n. split; [|lra]. apply count_no; [|assumption]. rewrite <- pdf_bin_iff by assumption. lia.
    + rewrite S2. cbn [length]. rewrite S_INR.
      assert (rsum o1 = rsum o + 1); [|lra].
      rewrite (rsum_nth o1 20) by lia. rewrite (rsum_nth o 20) by lia.
      rewrite (map_ext _ _ N1). rewrite (rsum_map_plus _ (fun k => nth k o 0)).
      rewrite rsum_indicator. destruct (Nat.ltb_spec (Z.to_nat (pdf_bin s t)) 20); [reflexivity|lia].
Qed.

Lemma C49_pdf_aux : forall tau s, tau <> [] ->
  exists d, calc_pdf tau s = Some d /\ is_pdf s tau d /\ rsum d = 20 /\ Forall (fun x => 0 <= x) d.
Proof.
  intros tau s Hne. unfold calc_pdf.
  destruct (histogram s tau (repeat 0 pbins) (repeat_length _ _)) as (o & E & L & N & Sm).
  rewrite E. cbn [option_map]. eexists. split; [reflexivity|].
  replace (INR pbins) with 20 by (unfold pbins; simpl; lra).
  assert (P : 0 < INR (length tau)) by (apply lt_0_INR; destruct tau; [congruence|simpl; lia]).
  assert (V : forall b, (b < 20)%nat -> exists n, count_of (transmission_in 20 b s) tau n /\
     nth b (map (fun x => x / INR (length tau) * 20) o) 0 = INR n * 20 / INR (length tau)).
  { intros b Hb. destruct (N b Hb) as (n & C & V). exists n. split; [assumption|].
    rewrite (nth_indep _ 0 (0 / INR (length tau) * 20)) by (rewrite map_length; lia).
    rewrite (map_nth (fun x => x / INR (length tau) * 20)), V, nth_repeat. field. lra. }
  split; [split; [rewrite map_length; assumption|exact V]|]. split.
  - replace (rsum (repeat 0 pbins)) with 0 in Sm by (unfold rsum, pbins; simpl; ring).
    replace (map (fun x => x / INR (length tau) * 20) o) with (map (fun x => (20 / INR (length tau)) * x) o)
      by (apply map_ext; intros x; field; lra).
    rewrite (rsum_map_scal _ _ (fun x => x)), map_id, Sm. field. lra.
  - apply Forall_forall. intros x Hx. apply In_nth with (d := 0) in Hx. destruct Hx as (b & Hb & <-).
    rewrite map_length, L in Hb. destruct (V b Hb) as (n & _ & ->).
    apply Rmult_le_pos; [|left; apply Rinv_0_lt_compat; assumption]. pose proof (pos_INR n). lra.
Qed.
