(** Proofs about the smoothing of the C extractor's power spectra. *)
From Coq Require Import ZArith List Lia Reals Lra.
From Verif Require Import AbsorptionSpec AbsorptionProofs CstatModel CstatSpec.
Import ListNotations.
Local Open Scope R_scope.

(** ** Ranges *)

Lemma c_range_in : forall lo hi j, In j (c_range lo hi) <-> (lo <= j < hi)%Z.
Proof.
  intros lo hi j. unfold c_range. rewrite in_map_iff. split.
  - intros (k & E & H). apply in_seq in H. lia.
  - intros H. exists (Z.to_nat (j - lo)). split; [lia|]. apply in_seq. lia.
Qed.

Lemma c_range_nil : forall lo hi, (hi <= lo)%Z -> c_range lo hi = [].
Proof. intros lo hi H. unfold c_range. replace (Z.to_nat (hi - lo)) with 0%nat by lia. reflexivity. Qed.

Lemma c_range_cons : forall lo hi, (lo < hi)%Z -> c_range lo hi = lo :: c_range (lo + 1) hi.
Proof.
  intros lo hi H. unfold c_range. replace (Z.to_nat (hi - lo)) with (S (Z.to_nat (hi - (lo + 1)))) by lia.
  cbn [seq map]. f_equal; [lia|]. rewrite <- seq_shift, map_map. apply map_ext. intros k. lia.
Qed.

Lemma c_range_snoc : forall lo hi, (lo <= hi)%Z -> c_range lo (hi + 1) = c_range lo hi ++ [hi].
Proof.
  intros lo hi H. unfold c_range. replace (Z.to_nat (hi + 1 - lo)) with (S (Z.to_nat (hi - lo))) by lia.
  rewrite seq_S, map_app. cbn [map]. f_equal. f_equal. lia.
Qed.

Lemma c_range_app : forall lo mid hi, (lo <= mid <= hi)%Z -> c_range lo hi = c_range lo mid ++ c_range mid hi.
Proof.
  intros lo mid hi H. unfold c_range.
  replace (Z.to_nat (hi - lo)) with (Z.to_nat (mid - lo) + Z.to_nat (hi - mid))%nat by lia.
  rewrite seq_app, map_app. f_equal. cbn [Nat.add].
  assert (G : forall n b, seq b n = map (fun k => (b + k)%nat) (seq 0 n)).
  { clear. induction n as [|n IH]; intros b; [reflexivity|]. cbn [seq map]. f_equal; [lia|].
    rewrite (IH (S b)), <- seq_shift, map_map. apply map_ext. intros k. lia. }
  rewrite G, map_map. apply map_ext. intros k. lia.
Qed.

Lemma zsum_range : forall h f, zsum h f = rsum (map f (c_range (- Z.of_nat h) (Z.of_nat h + 1))).
Proof.
  intros h f. unfold zsum, c_range. rewrite map_map. f_equal.
  replace (Z.to_nat (Z.of_nat h + 1 - - Z.of_nat h)) with (2 * h + 1)%nat by lia.
  apply map_ext. intros k. f_equal. lia.
Qed.

(** ** Reads and sums *)

Lemma c_get_in : forall a i, (0 <= i < Z.of_nat (length a))%Z -> c_get a i = Some (nth (Z.to_nat i) a 0).
Proof.
  intros a i H. unfold c_get. destruct (i <? 0)%Z eqn:E; [apply Z.ltb_lt in E; lia|].
  apply nth_error_nth'. lia.
Qed.

Lemma c_get_out : forall a i, (i < 0 \/ Z.of_nat (length a) <= i)%Z -> c_get a i = None.
Proof.
  intros a i H. unfold c_get. destruct (i <? 0)%Z eqn:E; [reflexivity|]. apply Z.ltb_ge in E.
  apply nth_error_None. lia.
Qed.

Lemma acc_none : forall a ix js, c_accumulate a ix js None = None.
Proof. intros a ix js. unfold c_accumulate. induction js; [reflexivity|exact IHjs]. Qed.

Lemma acc_some : forall a ix v js s, (forall j, In j js -> c_get a (ix j) = Some (v j)) ->
  c_accumulate a ix js (Some s) = Some (s + rsum (map v js)).
Proof.
  intros a ix v. unfold c_accumulate, rsum. induction js as [|j js IH]; intros s H; cbn [fold_left map fold_right].
  - f_equal. ring.
  - rewrite (H j (or_introl eq_refl)), IH by (intros; apply H; right; assumption). f_equal. ring.
Qed.

Lemma acc_bad : forall a ix js acc, (exists j, In j js /\ c_get a (ix j) = None) ->
  c_accumulate a ix js acc = None.
Proof.
  intros a ix. induction js as [|j js IH]; intros acc (j0 & H & E); [contradiction|].
  change (c_accumulate a ix (j :: js) acc) with (c_accumulate a ix js
    (match acc, c_get a (ix j) with Some s, Some x => Some (s + x) | _, _ => None end)).
  destruct H as [->|H].
  - rewrite E. destruct acc; apply acc_none.
  - apply IH. eauto.
Qed.

(** ** Writes *)

Lemma put_spec : forall i v o, (i < length o)%nat ->
  exists o', put i v o = Some o' /\ length o' = length o /\
    forall k d, nth k o' d = if Nat.eqb k i then v else nth k o d.
Proof.
  induction i as [|i IH]; intros v [|x o] H; cbn [length] in H; try lia.
  - exists (v :: o). split; [reflexivity|]. split; [reflexivity|]. intros [|k] d; reflexivity.
  - destruct (IH v o ltac:(lia)) as (o' & E & L & N). exists (x :: o'). cbn [put]. rewrite E.
    split; [reflexivity|]. split; [cbn [length]; lia|]. intros [|k] d; [reflexivity|]. cbn [nth Nat.eqb]. apply N.
Qed.

Lemma put_none : forall i v o, (length o <= i)%nat -> put i v o = None.
Proof.
  induction i as [|i IH]; intros v [|x o] H; cbn [length] in H; try lia; try reflexivity.
  cbn [put]. rewrite IH by lia. reflexivity.
Qed.

Lemma put_length : forall i v o o', put i v o = Some o' -> length o' = length o.
Proof.
  intros i v o o' H. destruct (le_lt_dec (length o) i) as [L|L].
  - rewrite put_none in H by assumption. discriminate.
  - destruct (put_spec i v o L) as (o1 & E & Len & _). congruence.
Qed.

Lemma c_fill_none : forall v is, c_fill v is None = None.
Proof. intros v is. unfold c_fill. induction is; [reflexivity|exact IHis]. Qed.

Lemma c_fill_bad : forall v is out, (exists i, In i is /\ (v i = None \/ match out with
   Some o => (i < 0 \/ Z.of_nat (length o) <= i)%Z | None => True end)) -> c_fill v is out = None.
Proof.
  intros v. induction is as [|i is IH]; intros out (i0 & H & B); [contradiction|].
  change (c_fill v (i :: is) out) with (c_fill v is
    (match out, v i with Some o, Some x => c_put i x o | _, _ => None end)).
  destruct out as [o|]; [|apply c_fill_none].
  destruct (v i) as [x|] eqn:Ev; [|apply c_fill_none].
  destruct (c_put i x o) as [o'|] eqn:Ep; [|apply c_fill_none].
  destruct H as [->|H].
  - exfalso. unfold c_put in Ep. destruct B as [B|B]; [congruence|]. destruct (i0 <? 0)%Z eqn:E; [discriminate|].
    apply Z.ltb_ge in E. rewrite put_none in Ep by lia. discriminate.
  - apply IH. exists i0. split; [assumption|]. destruct B as [B|B]; [left; assumption|right].
    unfold c_put in Ep. destruct (i <? 0)%Z; [discriminate|]. apply put_length in Ep. rewrite Ep. assumption.
Qed.

Lemma c_fill_range : forall (v : Z -> option R) (w : Z -> R) n lo o, (0 <= lo)%Z ->
  (lo + Z.of_nat n <= Z.of_nat (length o))%Z ->
  (forall i, (lo <= i < lo + Z.of_nat n)%Z -> v i = Some (w i)) ->
  exists o', c_fill v (c_range lo (lo + Z.of_nat n)) (Some o) = Some o' /\ length o' = length o /\
    forall k, nth k o' 0 = if andb (lo <=? Z.of_nat k)%Z (Z.of_nat k <? lo + Z.of_nat n)%Z
                           then w (Z.of_nat k) else nth k o 0.
Proof.
  intros v w. induction n as [|n IH]; intros lo o H0 H1 Hv.
  - exists o. rewrite c_range_nil by lia. split; [reflexivity|]. split; [reflexivity|].
    intros k. destruct (lo <=? Z.of_nat k)%Z eqn:E1, (Z.of_nat k <? lo + Z.of_nat 0)%Z eqn:E2; try reflexivity.
    apply Z.leb_le in E1. apply Z.ltb_lt in E2. lia.
  - rewrite c_range_cons by lia.
    change (c_fill v (lo :: c_range (lo + 1) (lo + Z.of_nat (S n))) (Some o)) with
      (c_fill v (c_range (lo + 1) (lo + Z.of_nat (S n))) (match v lo with Some x => c_put lo x o | None => None end)).
    rewrite (Hv lo) by lia. unfold c_put. destruct (lo <? 0)%Z eqn:E; [apply Z.ltb_lt in E; lia|].
    destruct (put_spec (Z.to_nat lo) (w lo) o ltac:(lia)) as (o1 & Ep & L1 & N1). rewrite Ep.
    replace (lo + Z.of_nat (S n))%Z with (lo + 1 + Z.of_nat n)%Z by lia.
    destruct (IH (lo + 1)%Z o1) as (o2 & E2 & L2 & N2); [lia|lia|intros; apply Hv; lia|].
    exists o2. split; [assumption|]. split; [lia|]. intros k. rewrite N2, N1.
    destruct (lo + 1 <=? Z.of_nat k)%Z eqn:A, (Z.of_nat k <? lo + 1 + Z.of_nat n)%Z eqn:B,
      (lo <=? Z.of_nat k)%Z eqn:C; destruct (Nat.eqb_spec k (Z.to_nat lo)) as [D|D]; cbn [andb]; try reflexivity;
      try apply Z.leb_le in A; try apply Z.leb_gt in A; try apply Z.ltb_lt in B; try apply Z.ltb_ge in B;
      try apply Z.leb_le in C; try apply Z.leb_gt in C; try lia.
    f_equal. lia.
Qed.

(** ** C48 *)

Lemma half_quot : forall h slen, half_width h slen -> Z.quot (slen - 1) 2 = Z.of_nat h.
Proof.
  intros h slen [->| ->].
  - replace (2 * Z.of_nat h + 1 - 1)%Z with (Z.of_nat h * 2)%Z by lia. apply Z.quot_mul. lia.
  - symmetry. apply Z.quot_unique with 1%Z; lia.
Qed.

Lemma extended_get : forall a m, (0 <= m < Z.of_nat (length a))%Z -> c_get a m = Some (extended a m).
Proof.
  intros a m H. rewrite c_get_in by assumption. unfold extended.
  destruct (m <? 0)%Z eqn:E; [apply Z.ltb_lt in E; lia|reflexivity].
Qed.

Lemma rsum_zero : forall l : list Z, forall f, (forall j, In j l -> f j = 0) -> rsum (map f l) = 0.
Proof.
  intros l f H. unfold rsum. induction l as [|j l IH]; [reflexivity|]. cbn [map fold_right].
  rewrite (H j (or_introl eq_refl)), IH by (intros; apply H; right; assumption). ring.
Qed.

Lemma rsum_ext_in : forall l : list Z, forall f g, (forall j, In j l -> f j = g j) -> rsum (map f l) = rsum (map g l).
Proof. intros. f_equal. apply map_ext_in. assumption. Qed.

Section Smooth.
Variables (inp out : list R) (h : nat) (slen : Z).
Hypothesis Hs : half_width h slen.
Hypothesis Hout : length out = length inp.
Let len := Z.of_nat (length inp).
Let off := Z.of_nat h.
Let w (i : Z) : R := zsum h (fun d => extended inp (i + d)%Z).

Lemma start_value : forall i, (0 <= i < off)%Z -> (2 * off <= len)%Z ->
  c_accumulate inp (fun j => i + j)%Z (c_range (- i) (off + 1))
      (c_accumulate inp (fun _ => 0%Z) (c_range (- off) (- i)) (Some 0)) = Some (w i).
Proof.
  intros i Hi Hl. unfold len, off in *.
  rewrite (acc_some inp (fun _ => 0%Z) (fun d => extended inp (i + d))).
  2:{ intros j Hj. apply c_range_in in Hj. rewrite c_get_in by lia. unfold extended.
      destruct (i + j <? 0)%Z eqn:E; [reflexivity|apply Z.ltb_ge in E; lia]. }
  rewrite (acc_some inp (fun j => i + j)%Z (fun d => extended inp (i + d))).
  2:{ intros j Hj. apply c_range_in in Hj. apply extended_get. lia. }
  unfold w. rewrite zsum_range, (c_range_app (- Z.of_nat h) (- i) (Z.of_nat h + 1)) by lia.
  rewrite map_app, rsum_app. f_equal. ring.
Qed.

Lemma middle_value : forall i, (off <= i < len - off)%Z ->
  c_accumulate inp (fun j => i + j)%Z (c_range (- off) (off + 1)) (Some 0) = Some (w i).
Proof.
  intros i Hi. unfold len, off in *.
  rewrite (acc_some inp (fun j => i + j)%Z (fun d => extended inp (i + d))).
  2:{ intros j Hj. apply c_range_in in Hj. apply extended_get. lia. }
  unfold w. rewrite zsum_range. f_equal. ring.
Qed.

Lemma last_value : forall i, (len - off <= i < len)%Z -> (2 * off <= len)%Z ->
  c_accumulate inp (fun _ => len - 1)%Z (c_range (len - i) (- i + 1))
      (c_accumulate inp (fun j => i + j)%Z (c_range (- off) (len - i)) (Some 0)) = Some (w i).
Proof.
  intros i Hi Hl. unfold len, off in *.
  rewrite (c_range_nil (Z.of_nat (length inp) - i) (- i + 1)) by lia.
  rewrite (acc_some inp (fun j => i + j)%Z (fun d => extended inp (i + d))).
  2:{ intros j Hj. apply c_range_in in Hj. apply extended_get. lia. }
  cbn [c_accumulate fold_left].
  unfold w. rewrite zsum_range, (c_range_app (- Z.of_nat h) (Z.of_nat (length inp) - i) (Z.of_nat h + 1)) by lia.
  rewrite map_app, rsum_app.
  rewrite (rsum_zero (c_range (Z.of_nat (length inp) - i) (Z.of_nat h + 1))).
  2:{ intros j Hj. apply c_range_in in Hj. unfold extended. destruct (i + j <? 0)%Z eqn:E; [apply Z.ltb_lt in E; lia|].
      apply nth_overflow. lia. }
  unfold c_accumulate. cbn [fold_left]. f_equal. ring.
Qed.

Lemma smooth_some : (2 * off <= len)%Z ->
  exists o, smooth inp out len slen = Some o /\ length o = length inp /\
    forall i, (i < length inp)%nat -> nth i o 0 = w (Z.of_nat i) / IZR slen.
Proof.
  intros Hl. unfold smooth. rewrite (half_quot h slen Hs). fold off.
  destruct (c_fill_range (fun i => c_accumulate inp (fun j => i + j)%Z (c_range (- i) (off + 1))
      (c_accumulate inp (fun _ => 0%Z) (c_range (- off) (- i)) (Some 0))) w h 0 out) as (o1 & E1 & L1 & N1).
  { lia. } { unfold len, off in *. lia. } { intros i Hi. apply start_value; unfold off in *; lia. }
  replace (0 + Z.of_nat h)%Z with off in * by (unfold off; lia). rewrite E1.
  destruct (c_fill_range (fun i => c_accumulate inp (fun j => i + j)%Z (c_range (- off) (off + 1)) (Some 0)) w
      (Z.to_nat (len - 2 * off)) off o1) as (o2 & E2 & L2 & N2).
  { unfold off; lia. } { unfold len, off in *. lia. } { intros i Hi. apply middle_value. unfold len, off in *; lia. }
  replace (off + Z.of_nat (Z.to_nat (len - 2 * off)))%Z with (len - off)%Z in * by (unfold len, off in *; lia).
  rewrite E2.
  destruct (c_fill_range (fun i => c_accumulate inp (fun _ => len - 1)%Z (c_range (len - i) (- i + 1))
      (c_accumulate inp (fun j => i + j)%Z (c_range (- off) (len - i)) (Some 0))) w
      h (len - off) o2) as (o3 & E3 & L3 & N3).
  { unfold len, off in *; lia. } { unfold len, off in *. lia. }
  { intros i Hi. apply last_value; unfold len, off in *; lia. }
  replace (len - off + Z.of_nat h)%Z with len in * by (unfold len, off in *; lia).
  rewrite E3.
  destruct (c_fill_range (fun i => option_map (fun x => x / IZR slen) (c_get o3 i))
      (fun i => nth (Z.to_nat i) o3 0 / IZR slen) (length inp) 0 o3) as (o4 & E4 & L4 & N4).
  { lia. } { lia. } { intros i Hi. rewrite c_get_in by lia. reflexivity. }
  replace (0 + Z.of_nat (length inp))%Z with len in * by (unfold len; lia).
  exists o4. split; [assumption|]. split; [lia|]. intros i Hi. rewrite N4.
  destruct (andb (0 <=? Z.of_nat i)%Z (Z.of_nat i <? len)%Z) eqn:B.
  2:{ apply Bool.andb_false_iff in B. destruct B as [B|B]; [apply Z.leb_gt in B|apply Z.ltb_ge in B]; unfold len in *; lia. }
  rewrite Nat2Z.id. f_equal. rewrite N3, N2, N1.
  destruct (len - off <=? Z.of_nat i)%Z eqn:A1, (Z.of_nat i <? len)%Z eqn:A2, (off <=? Z.of_nat i)%Z eqn:A3,
    (Z.of_nat i <? len - off)%Z eqn:A4, (0 <=? Z.of_nat i)%Z eqn:A5, (Z.of_nat i <? off)%Z eqn:A6; cbn [andb]; try reflexivity;
  repeat match goal with
  | H : (_ <=? _)%Z = true |- _ => apply Z.leb_le in H
  | H : (_ <=? _)%Z = false |- _ => apply Z.leb_gt in H
  | H : (_ <? _)%Z = true |- _ => apply Z.ltb_lt in H
  | H : (_ <? _)%Z = false |- _ => apply Z.ltb_ge in H
  end; unfold len, off in *; lia.
Qed.

Lemma smooth_none : (len < 2 * off)%Z -> smooth inp out len slen = None.
Proof.
  intros Hl. unfold smooth. rewrite (half_quot h slen Hs). fold off.
  rewrite (c_fill_bad _ (c_range 0 off)).
  - rewrite !c_fill_none. reflexivity.
  - exists (off - 1)%Z. split; [apply c_range_in; unfold len, off in *; lia|].
    destruct (Z_lt_le_dec (off - 1) len) as [L|L].
    + left. apply acc_bad. exists off. split; [apply c_range_in; unfold len, off in *; lia|].
      apply c_get_out. unfold len, off in *. lia.
    + right. right. rewrite Hout. exact L.
Qed.

End Smooth.

Lemma C48_window_aux : forall inp out h slen, half_width h slen -> length out = length inp ->
  (2 * h <= length inp)%nat ->
  exists o, smooth inp out (Z.of_nat (length inp)) slen = Some o /\ length o = length inp /\
    forall i, (i < length inp)%nat -> nth i o 0 = window_mean h (IZR slen) (extended inp) i.
Proof.
  intros inp out h slen Hs Ho Hl.
  destruct (smooth_some inp out h slen Hs Ho ltac:(lia)) as (o & E & L & N). exists o. repeat split; assumption.
Qed.

Lemma C48_short_aux : forall inp out h slen, half_width h slen -> length out = length inp ->
  (smooth inp out (Z.of_nat (length inp)) slen = None <-> (length inp < 2 * h)%nat).
Proof.
  intros inp out h slen Hs Ho. split; intros H.
  - destruct (le_lt_dec (2 * h) (length inp)) as [L|L]; [|assumption].
    destruct (smooth_some inp out h slen Hs Ho ltac:(lia)) as (o & E & _). congruence.
  - apply smooth_none with h; try assumption. lia.
Qed.

Lemma rsum_const_range : forall lo hi c, (lo <= hi)%Z -> rsum (map (fun _ => c) (c_range lo hi)) = IZR (hi - lo) * c.
Proof.
  intros lo hi c H. unfold c_range. rewrite map_map.
  replace (IZR (hi - lo)) with (INR (Z.to_nat (hi - lo))) by (rewrite INR_IZR_INZ, Z2Nat.id; [reflexivity|lia]).
  generalize (Z.to_nat (hi - lo)) as n. clear. intros n. generalize 0%nat.
  induction n as [|n IH]; intros b; cbn [seq map]; unfold rsum in *; cbn [fold_right].
  - simpl. ring.
  - rewrite IH, S_INR. ring.
Qed.

Lemma nth_repeat_in : forall (c : R) n k d, (k < n)%nat -> nth k (repeat c n) d = c.
Proof. induction n as [|n IH]; intros [|k] d H; try lia; [reflexivity|]. apply IH. lia. Qed.

Lemma window_const : forall c n h w i, (i < n)%nat -> (2 * h <= n)%nat ->
  window_mean h w (extended (repeat c n)) i =
  c * (if (i + h <? n)%nat then INR (2 * h + 1) else INR (n - i + h)) / w.
Proof.
  intros c n h w i Hi Hl. unfold window_mean. f_equal. rewrite zsum_range.
  assert (In1 : forall m, (m < Z.of_nat n)%Z -> extended (repeat c n) m = c).
  { intros m H. unfold extended. destruct (m <? 0)%Z eqn:E; [apply nth_repeat_in; lia|].
    apply Z.ltb_ge in E. apply nth_repeat_in. lia. }
  destruct (Nat.ltb_spec (i + h) n) as [L|L].
  - rewrite (rsum_ext_in _ _ (fun _ => c)) by (intros j Hj; apply c_range_in in Hj; apply In1; lia).
    rewrite rsum_const_range by lia. rewrite INR_IZR_INZ.
    replace (Z.of_nat (2 * h + 1)) with (Z.of_nat h + 1 - - Z.of_nat h)%Z by lia. ring.
  - rewrite (c_range_app _ (Z.of_nat n - Z.of_nat i)) by lia. rewrite map_app, rsum_app.
    rewrite (rsum_ext_in (c_range (- Z.of_nat h) _) _ (fun _ => c)) by (intros j Hj; apply c_range_in in Hj; apply In1; lia).
    rewrite rsum_const_range by lia. rewrite (rsum_zero (c_range (Z.of_nat n - Z.of_nat i) _)).
    2:{ intros j Hj. apply c_range_in in Hj. unfold extended. destruct (_ <? 0)%Z eqn:E; [apply Z.ltb_lt in E; lia|].
        apply nth_overflow. rewrite repeat_length. lia. }
    rewrite INR_IZR_INZ. replace (Z.of_nat (n - i + h)) with (Z.of_nat n - Z.of_nat i - - Z.of_nat h)%Z by lia. ring.
Qed.

Lemma C48_constant_aux : forall c n out h, length out = n -> (2 * h <= n)%nat ->
  exists o, smooth (repeat c n) out (Z.of_nat n) (2 * Z.of_nat h + 1) = Some o /\ length o = n /\
    (forall i, (i + h < n)%nat -> nth i o 0 = c) /\
    (forall i, (i < n <= i + h)%nat -> nth i o 0 = c * (INR (n - i + h) / INR (2 * h + 1))).
Proof.
  intros c n out h Ho Hl.
  destruct (C48_window_aux (repeat c n) out h (2 * Z.of_nat h + 1) (or_introl eq_refl)) as (o & E & L & N).
  { rewrite repeat_length. assumption. } { rewrite repeat_length. assumption. }
  rewrite repeat_length in *. exists o. split; [assumption|]. split; [assumption|].
  assert (W : IZR (2 * Z.of_nat h + 1) = INR (2 * h + 1)) by (rewrite INR_IZR_INZ; f_equal; lia).
  assert (P : 0 < INR (2 * h + 1)) by (apply lt_0_INR; lia).
  split; intros i Hi; rewrite N, window_const, W by lia.
  - destruct (Nat.ltb_spec (i + h) n); [|lia]. field. lra.
  - destruct (Nat.ltb_spec (i + h) n); [lia|]. field. lra.
Qed.

Lemma C48_edge_aux : forall c n out h, 0 < c -> (1 <= h)%nat -> length out = n -> (2 * h <= n)%nat ->
  exists o, smooth (repeat c n) out (Z.of_nat n) (2 * Z.of_nat h + 1) = Some o /\
    nth (n - 1) o 0 = c * (INR (h + 1) / INR (2 * h + 1)) /\ nth (n - 1) o 0 < c /\
    window_mean h (INR (2 * h + 1)) (extended_both (repeat c n)) (n - 1) = c.
Proof.
  intros c n out h Hc Hh Ho Hl. destruct (C48_constant_aux c n out h Ho Hl) as (o & E & L & _ & N).
  exists o. split; [assumption|]. rewrite (N (n - 1)%nat) by lia.
  replace (n - (n - 1) + h)%nat with (h + 1)%nat by lia. split; [reflexivity|].
  assert (P : 0 < INR (2 * h + 1)) by (apply lt_0_INR; lia).
  split.
  - assert (INR (h + 1) < INR (2 * h + 1)) by (apply lt_INR; lia).
    rewrite <- (Rmult_1_r c) at 2. apply Rmult_lt_compat_l; [assumption|].
    apply Rmult_lt_reg_r with (INR (2 * h + 1)); [assumption|]. unfold Rdiv. rewrite Rmult_assoc, Rinv_l; lra.
  - unfold window_mean. rewrite zsum_range.
    rewrite (rsum_ext_in _ _ (fun _ => c)).
    + rewrite rsum_const_range by lia. replace (IZR (Z.of_nat h + 1 - - Z.of_nat h)) with (INR (2 * h + 1)).
      * field. lra.
      * rewrite INR_IZR_INZ. f_equal. lia.
    + intros j Hj. apply c_range_in in Hj. unfold extended_both. rewrite repeat_length.
      destruct (_ <? 0)%Z eqn:E1; [apply nth_repeat_in; lia|]. apply Z.ltb_ge in E1.
      destruct (_ <? Z.of_nat n)%Z eqn:E2; [apply Z.ltb_lt in E2|]; apply nth_repeat_in; lia.
Qed.

Lemma C48_even_aux : forall c n out h, 0 < c -> length out = n -> (2 * h <= n)%nat ->
  exists o, smooth (repeat c n) out (Z.of_nat n) (2 * Z.of_nat h + 2) = Some o /\
    forall i, (i < n)%nat -> nth i o 0 < c.
Proof.
  intros c n out h Hc Ho Hl.
  destruct (C48_window_aux (repeat c n) out h (2 * Z.of_nat h + 2) (or_intror eq_refl)) as (o & E & L & N).
  { rewrite repeat_length. assumption. } { rewrite repeat_length. assumption. }
  rewrite repeat_length in *. exists o. split; [assumption|]. intros i Hi.
  assert (W : IZR (2 * Z.of_nat h + 2) = INR (2 * h + 2)) by (rewrite INR_IZR_INZ; f_equal; lia).
  assert (P : 0 < INR (2 * h + 2)) by (apply lt_0_INR; lia).
  rewrite N, window_const, W by lia.
  set (m := if (i + h <? n)%nat then INR (2 * h + 1) else INR (n - i + h)).
  assert (M : m < INR (2 * h + 2)).
  { unfold m. destruct (Nat.ltb_spec (i + h) n); apply lt_INR; lia. }
  apply Rmult_lt_reg_r with (INR (2 * h + 2)); [assumption|]. unfold Rdiv. rewrite Rmult_assoc, Rinv_l by lra.
  rewrite Rmult_1_r. apply Rmult_lt_compat_l; assumption.
Qed.

(** Values stay between bounds which hold for the input and zero. *)
Lemma C48_range_aux : forall inp out h slen M o, half_width h slen -> length out = length inp ->
  Forall (fun x => 0 <= x <= M) inp -> smooth inp out (Z.of_nat (length inp)) slen = Some o ->
  Forall (fun x => 0 <= x <= M) o.
Proof.
  intros inp out h slen M o Hs Ho HF E.
  assert (Hl : (2 * h <= length inp)%nat).
  { destruct (le_lt_dec (2 * h) (length inp)) as [L|L]; [assumption|].
    apply (C48_short_aux inp out h slen Hs Ho) in L. congruence. }
  destruct (C48_window_aux inp out h slen Hs Ho Hl) as (o' & E' & L & N).
  assert (o' = o) by congruence. subst o'.
  apply Forall_forall. intros x Hx. apply In_nth with (d := 0) in Hx. destruct Hx as (i & Hi & <-).
  rewrite N by lia. unfold window_mean. rewrite zsum_range.
  assert (HM : 0 <= M).
  { destruct inp as [|y inp]; [cbn [length] in *; lia|]. inversion HF; subst. lra. }
  assert (B : forall m, 0 <= extended inp m <= M).
  { intros m. rewrite Forall_forall in HF. unfold extended.
    assert (G : forall k, 0 <= nth k inp 0 <= M).
    { intros k. destruct (nth_in_or_default k inp 0) as [H| ->]; [apply HF; assumption|lra]. }
    destruct (_ <? 0)%Z; apply G. }
  assert (P : INR (2 * h + 1) <= IZR slen).
  { rewrite INR_IZR_INZ. apply IZR_le. destruct Hs; lia. }
  assert (P0 : 0 < INR (2 * h + 1)) by (apply lt_0_INR; lia).
  assert (S1 : forall l : list Z, 0 <= rsum (map (fun d => extended inp (Z.of_nat i + d)) l) <= INR (length l) * M).
  { induction l as [|j l IH]; [simpl; lra|]. unfold rsum in *. cbn [map fold_right length]. rewrite S_INR.
    specialize (B (Z.of_nat i + j)%Z). lra. }
  specialize (S1 (c_range (- Z.of_nat h) (Z.of_nat h + 1))).
  assert (Len : length (c_range (- Z.of_nat h) (Z.of_nat h + 1)) = (2 * h + 1)%nat).
  { unfold c_range. rewrite map_length, seq_length. lia. }
  rewrite Len in S1. set (sm := rsum _) in *.
  split.
  - apply Rmult_le_pos; [lra|]. left. apply Rinv_0_lt_compat. lra.
  - apply Rmult_le_reg_r with (IZR slen); [lra|]. unfold Rdiv. rewrite Rmult_assoc, Rinv_l by lra. nra.
Qed.
