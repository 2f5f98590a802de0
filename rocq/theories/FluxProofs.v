(** Proofs about flux PDF and flux power. *)
From Coq Require Import ZArith List Reals Lra Lia Arith Permutation.
From Verif Require Import AbsorptionSpec AbsorptionProofs SnapshotModel SnapshotProofs RescaleModel RescaleSpec RescaleProofs
  FluxModel FluxSpec.
Import ListNotations.
Local Open Scope R_scope.

(** ** Sums *)

Lemma rsum_swap : forall (A B : Type) (f : A -> B -> R) la lb,
  rsum (map (fun a => rsum (map (f a) lb)) la) = rsum (map (fun b => rsum (map (fun a => f a b) la)) lb).
Proof.
  intros A B f la lb. induction la as [|a la IH]; simpl.
  - symmetry. apply rsum_zero. intros x Hx. apply in_map_iff in Hx. destruct Hx as (b & <- & _). reflexivity.
  - unfold rsum at 1. cbn [fold_right]. fold (rsum (map (fun a => rsum (map (f a) lb)) la)). rewrite IH.
    rewrite <- rsum_map_plus. reflexivity.
Qed.

Lemma rsum_mult : forall (A B : Type) (f : A -> R) (g : B -> R) la lb,
  rsum (map f la) * rsum (map g lb) = rsum (map (fun a => rsum (map (fun b => f a * g b) lb)) la).
Proof.
  intros. induction la as [|a la IH]; simpl.
  - unfold rsum at 1. simpl. unfold rsum. simpl. ring.
  - unfold rsum at 1 3. cbn [fold_right]. fold (rsum (map f la)).
    fold (rsum (map (fun a => rsum (map (fun b => f a * g b) lb)) la)). rewrite <- IH, rsum_map_scal. ring.
Qed.

Lemma rsum_single : forall n j (v : R), (j < n)%nat ->
  rsum (map (fun l => if Nat.eqb j l then v else 0) (seq 0 n)) = v.
Proof.
  intros n j v Hj. replace n with (j + (1 + (n - j - 1)))%nat by lia.
  rewrite seq_app, map_app, rsum_app. cbn [plus]. cbn [seq map]. unfold rsum at 2. cbn [fold_right].
  rewrite Nat.eqb_refl. fold (rsum (map (fun l => if Nat.eqb j l then v else 0) (seq (S j) (n - j - 1)))).
  rewrite !rsum_zero; [ring| |]; intros x Hx; apply in_map_iff in Hx; destruct Hx as (l & <- & Hl); apply in_seq in Hl;
    destruct (Nat.eqb_spec j l); try reflexivity; lia.
Qed.

(** ** Orthogonality *)

Lemma cos_2pi : forall x z, cos (x + 2 * PI * IZR z) = cos x.
Proof.
  assert (P : forall x n, cos (x + 2 * PI * INR n) = cos x).
  { intros x n. replace (2 * PI * INR n) with (2 * INR n * PI) by ring. apply cos_period. }
  intros x z. destruct (Z_le_dec 0 z).
  - rewrite <- (Z2Nat.id z) by assumption. rewrite <- INR_IZR_INZ. apply P.
  - rewrite <- (P (x + 2 * PI * IZR z) (Z.to_nat (- z))). f_equal.
    rewrite INR_IZR_INZ, Z2Nat.id by lia. rewrite opp_IZR. ring.
Qed.

Lemma sin_2pi : forall x z, sin (x + 2 * PI * IZR z) = sin x.
Proof.
  intros x z. rewrite <- !cos_shift. rewrite <- (cos_2pi (PI / 2 - x) (- z)). f_equal. rewrite opp_IZR. ring.
Qed.

Lemma cos_sum : forall n x, 2 * sin (x / 2) * rsum (map (fun k => cos (INR k * x)) (seq 0 n)) =
  sin ((INR n - 1 / 2) * x) + sin (x / 2).
Proof.
  intros n x. rewrite <- rsum_map_scal.
  rewrite (rsum_map_ext _ _ (fun k => (fun t => sin ((t - 1 / 2) * x)) (INR (S k)) - (fun t => sin ((t - 1 / 2) * x)) (INR k))).
  - rewrite (telescope (fun t => sin ((t - 1 / 2) * x)) INR n). cbn [INR]. replace ((0 - 1 / 2) * x) with (- (x / 2)) by field. rewrite sin_neg. ring.
  - intros k _. rewrite S_INR. cbv beta.
    replace ((INR k + 1 - 1 / 2) * x) with (INR k * x + x / 2) by field.
    replace ((INR k - 1 / 2) * x) with (INR k * x - x / 2) by field.
    rewrite sin_plus, sin_minus. ring.
Qed.

Lemma cos_sum_zero : forall n m, (0 < m < n)%nat ->
  rsum (map (fun k => cos (2 * PI * INR k * INR m / INR n)) (seq 0 n)) = 0.
Proof.
  intros n m Hm. set (x := 2 * PI * INR m / INR n).
  assert (Hn : 0 < INR n) by (apply lt_0_INR; lia).
  assert (Hm0 : 0 < INR m) by (apply lt_0_INR; lia).
  assert (Hmn : INR m < INR n) by (apply lt_INR; lia).
  pose proof PI_RGT_0 as Hpi.
  rewrite (rsum_map_ext _ _ (fun k => cos (INR k * x))) by (intros k _; f_equal; unfold x; field; lra).
  pose proof (cos_sum n x) as H.
  assert (Hs : 0 < sin (x / 2)).
  { apply sin_gt_0; unfold x.
    - replace (2 * PI * INR m / INR n / 2) with (PI * (INR m / INR n)) by (field; lra).
      apply Rmult_lt_0_compat; [assumption|]. apply Rdiv_lt_0_compat; assumption.
    - replace (2 * PI * INR m / INR n / 2) with (PI * (INR m / INR n)) by (field; lra).
      rewrite <- (Rmult_1_r PI) at 2. apply Rmult_lt_compat_l; [assumption|].
      apply (Rmult_lt_reg_r (INR n)); [assumption|]. unfold Rdiv. rewrite Rmult_assoc, Rinv_l by lra. lra. }
  replace ((INR n - 1 / 2) * x) with (- (x / 2) + 2 * PI * IZR (Z.of_nat m)) in H.
  2: { rewrite <- INR_IZR_INZ. unfold x. field. lra. }
  rewrite sin_2pi, sin_neg in H. 
  assert (2 * sin (x / 2) <> 0) by lra.
  apply (Rmult_eq_reg_l (2 * sin (x / 2))); [|assumption]. rewrite H. ring.
Qed.

Lemma orthogonal : forall n j l, (j < n)%nat -> (l < n)%nat ->
  rsum (map (fun k => cos (2 * PI * INR j * INR k / INR n - 2 * PI * INR l * INR k / INR n)) (seq 0 n)) =
  if Nat.eqb j l then INR n else 0.
Proof.
  intros n j l Hj Hl. assert (Hn : 0 < INR n) by (apply lt_0_INR; lia).
  assert (G : forall a b, (a < n)%nat -> (b < a)%nat ->
    rsum (map (fun k => cos (2 * PI * INR a * INR k / INR n - 2 * PI * INR b * INR k / INR n)) (seq 0 n)) = 0).
  { intros a b Ha Hb. rewrite <- (cos_sum_zero n (a - b)) by lia. apply rsum_map_ext. intros k _. f_equal.
    rewrite minus_INR by lia. field. lra. }
  destruct (Nat.eqb_spec j l) as [->|Hne].
  - rewrite (rsum_map_ext _ _ (fun _ => 1)).
    + clear. induction n as [|n IH]; [reflexivity|]. rewrite seq_S, map_app, rsum_app, IH, S_INR. unfold rsum. simpl. ring.
    + intros k _. rewrite Rminus_diag_eq by reflexivity. apply cos_0.
  - destruct (Nat.lt_ge_cases l j) as [H|H]; [apply G; assumption|].
    rewrite <- (G l j) by lia. apply rsum_map_ext. intros k _. rewrite <- cos_neg. f_equal. ring.
Qed.

(** ** Parseval *)

Definition C (x : list R) (k : nat) : R :=
  rsum (map (fun j => nth j x 0 * cos (2 * PI * INR j * INR k / INR (length x))) (seq 0 (length x))).
Definition Sn (x : list R) (k : nat) : R :=
  rsum (map (fun j => nth j x 0 * sin (2 * PI * INR j * INR k / INR (length x))) (seq 0 (length x))).

Lemma squares : forall x k, C x k ^ 2 + Sn x k ^ 2 =
  rsum (map (fun j => rsum (map (fun l => nth j x 0 * nth l x 0 *
    cos (2 * PI * INR j * INR k / INR (length x) - 2 * PI * INR l * INR k / INR (length x))) (seq 0 (length x)))) (seq 0 (length x))).
Proof.
  intros x k. replace (C x k ^ 2 + Sn x k ^ 2) with (C x k * C x k + Sn x k * Sn x k) by ring.
  unfold C, Sn. rewrite !rsum_mult, <- rsum_map_plus. apply rsum_map_ext. intros j _.
  rewrite <- rsum_map_plus. apply rsum_map_ext. intros l _. rewrite cos_minus. ring.
Qed.

Lemma parseval_full : forall x, rsum (map (fun k => C x k ^ 2 + Sn x k ^ 2) (seq 0 (length x))) =
  INR (length x) * rsum (map (fun v => v ^ 2) x).
Proof.
  intros x. set (n := length x).
  rewrite (rsum_map_ext _ _ _ _ (fun k _ => squares x k)). fold n.
  rewrite rsum_swap.
  rewrite (rsum_map_ext _ _ (fun j => INR n * (nth j x 0 ^ 2))).
  - rewrite rsum_map_scal. f_equal. rewrite (rsum_nth (map (fun v => v ^ 2) x) n) by (rewrite map_length; reflexivity).
    apply rsum_map_ext. intros j Hj. apply in_seq in Hj.
    rewrite (nth_indep (map (fun v => v ^ 2) x) 0 ((fun v => v ^ 2) 0)) by (rewrite map_length; unfold n in Hj; lia).
    symmetry. apply (map_nth (fun v => v ^ 2)).
  - intros j Hj. apply in_seq in Hj. rewrite rsum_swap.
    rewrite (rsum_map_ext _ _ (fun l => if Nat.eqb j l then INR n * nth j x 0 ^ 2 else 0)).
    + apply rsum_single. lia.
    + intros l Hl. apply in_seq in Hl. rewrite rsum_map_scal. rewrite orthogonal by lia.
      destruct (Nat.eqb_spec j l) as [->|]; ring.
Qed.

Lemma mirror : forall x k, (k <= length x)%nat -> (0 < length x)%nat ->
  C x (length x - k) ^ 2 + Sn x (length x - k) ^ 2 = C x k ^ 2 + Sn x k ^ 2.
Proof.
  intros x k Hk Hn. rewrite !squares. apply rsum_map_ext. intros j _. apply rsum_map_ext. intros l _. f_equal.
  assert (0 < INR (length x)) by (apply lt_0_INR; lia).
  rewrite <- cos_neg. rewrite <- (cos_2pi _ (Z.of_nat j - Z.of_nat l)). f_equal.
  rewrite minus_IZR, <- !INR_IZR_INZ. rewrite minus_INR by lia. field. lra.
Qed.

Lemma reversed : forall (f : nat -> R) n a, (a < n)%nat ->
  rsum (map (fun k => f (n - k)%nat) (seq 1 a)) = rsum (map f (seq (n - a) a)).
Proof.
  intros f n. induction a as [|a IH]; intros Ha; [reflexivity|].
  rewrite seq_S, map_app, rsum_app, IH by lia. replace (n - a)%nat with (S (n - S a)) by lia.
  cbn [seq map]. unfold rsum at 2 3. cbn [fold_right]. fold (rsum (map f (seq (S (n - S a)) a))).
  replace (n - (1 + a))%nat with (n - S a)%nat by lia. ring.
Qed.

Lemma half_sum : forall (f : nat -> R) n, (0 < n)%nat -> (forall k, (k <= n)%nat -> f (n - k)%nat = f k) ->
  rsum (map (fun k => multiplicity n k * f k) (seq 0 (n / 2 + 1))) = rsum (map f (seq 0 n)).
Proof.
  intros f n Hn Hf.
  assert (Two : forall a, (forall k, (1 <= k <= a)%nat -> (2 * k <> n)%nat) ->
    rsum (map (fun k => multiplicity n k * f k) (seq 1 a)) = 2 * rsum (map f (seq 1 a))).
  { intros a Ha. rewrite <- rsum_map_scal. apply rsum_map_ext. intros k Hk. apply in_seq in Hk.
    unfold multiplicity. destruct (Nat.eqb_spec k 0); [lia|]. destruct (Nat.eqb_spec (2 * k) n); [|reflexivity].
    exfalso. apply (Ha k); lia. }
  assert (Z0 : forall l, rsum (map (fun k => multiplicity n k * f k) (0%nat :: l)) = f 0%nat + rsum (map (fun k => multiplicity n k * f k) l)).
  { intros l. unfold rsum. cbn [map fold_right]. unfold multiplicity at 1. cbn [Nat.eqb]. ring. }
  assert (Rev : forall a, (a < n)%nat -> rsum (map f (seq (n - a) a)) = rsum (map f (seq 1 a))).
  { intros a Ha. rewrite <- reversed by assumption. apply rsum_map_ext. intros k Hk. apply in_seq in Hk. apply Hf. lia. }
  destruct (Nat.Even_or_Odd n) as [(m & E)|(m & E)].
  - assert (Em : (n / 2 = m)%nat) by (rewrite E, Nat.mul_comm; apply Nat.div_mul; lia).
    rewrite Em. destruct m as [|m]; [lia|].
    replace (S m + 1)%nat with (1 + (m + 1))%nat by lia. rewrite seq_app. cbn [app plus]. change (seq 0 1) with [0%nat].
    cbn [app]. rewrite Z0, seq_app, map_app, rsum_app, Two by (intros; lia). cbn [seq map].
    assert (En : seq 0 n = [0%nat] ++ seq 1 m ++ [S m] ++ seq (n - m) m).
    { rewrite E. replace (2 * S m)%nat with (1 + (m + (1 + m)))%nat by lia. rewrite !seq_app.
      replace (1 + (m + (1 + m)) - m)%nat with (0 + 1 + m + 1)%nat by lia. reflexivity. }
    rewrite En, !map_app, !rsum_app, Rev by lia. cbn [map].
    unfold rsum at 2 3 5. cbn [fold_right]. unfold multiplicity. cbn [Nat.eqb plus].
    destruct (Nat.eqb_spec (2 * S m) n); [ring|lia].
  - assert (Em : (n / 2 = m)%nat). { rewrite E, Nat.add_comm, Nat.mul_comm, Nat.div_add by lia. reflexivity. }
    rewrite Em. rewrite Nat.add_comm, seq_app. change (seq 0 1) with [0%nat]. cbn [app plus]. rewrite Z0, Two by (intros; lia).
    assert (En : seq 0 n = [0%nat] ++ seq 1 m ++ seq (n - m) m).
    { rewrite E. replace (2 * m + 1)%nat with (1 + (m + m))%nat by lia. rewrite !seq_app.
      replace (1 + (m + m) - m)%nat with (0 + 1 + m)%nat by lia. reflexivity. }
    rewrite En, !map_app, !rsum_app, Rev by lia. cbn [map]. unfold rsum at 2. cbn [fold_right]. ring.
Qed.

Lemma mode_power_def : forall x k, mode_power x k = (C x k ^ 2 + Sn x k ^ 2) / INR (length x) ^ 2.
Proof. reflexivity. Qed.

Lemma mode_power_nonneg : forall x k, (0 < length x)%nat -> 0 <= mode_power x k.
Proof.
  intros x k Hx. rewrite mode_power_def. apply Rmult_le_pos.
  - apply Rplus_le_le_0_compat; apply pow2_ge_0.
  - apply Rlt_le, Rinv_0_lt_compat, pow_lt, lt_0_INR. assumption.
Qed.

Lemma parseval_half : forall x, (0 < length x)%nat ->
  rsum (map (fun k => multiplicity (length x) k * mode_power x k) (seq 0 (length x / 2 + 1))) = mean (map (fun v => v ^ 2) x).
Proof.
  intros x Hx. assert (Hn : 0 < INR (length x)) by (apply lt_0_INR; assumption).
  rewrite (half_sum (mode_power x)).
  - rewrite (rsum_map_ext _ (mode_power x) (fun k => / INR (length x) ^ 2 * (C x k ^ 2 + Sn x k ^ 2))) by
      (intros k _; rewrite mode_power_def; unfold Rdiv; ring).
    rewrite rsum_map_scal, parseval_full. unfold mean. rewrite map_length. field. lra.
  - assumption.
  - intros k Hk. rewrite !mode_power_def, mirror by assumption. reflexivity.
Qed.

Lemma mode_power_zero : forall x, (0 < length x)%nat -> mode_power x 0 = mean x ^ 2.
Proof.
  intros x Hx. assert (Hn : 0 < INR (length x)) by (apply lt_0_INR; assumption).
  rewrite mode_power_def. unfold mean.
  assert (E1 : C x 0 = rsum x).
  { unfold C. rewrite (rsum_nth x (length x) eq_refl). apply rsum_map_ext. intros j _.
    replace (2 * PI * INR j * INR 0 / INR (length x)) with 0 by (cbn [INR]; field; lra). rewrite cos_0. ring. }
  assert (E2 : Sn x 0 = 0).
  { apply rsum_zero. intros v Hv. apply in_map_iff in Hv. destruct Hv as (j & <- & _).
    replace (2 * PI * INR j * INR 0 / INR (length x)) with 0 by (cbn [INR]; field; lra). rewrite sin_0. ring. }
  rewrite E1, E2. field. lra.
Qed.

(** ** Shifts *)

Definition place (n : nat) (k : Z) (j : nat) : nat := Z.to_nat ((Z.of_nat j + k) mod Z.of_nat n).

Lemma place_perm : forall n k, Permutation (map (place n k) (seq 0 n)) (seq 0 n).
Proof.
  intros n k. destruct (Nat.eq_dec n 0) as [->|Hn]; [constructor|].
  apply NoDup_Permutation_bis.
  - assert (Inj : forall l, NoDup l -> (forall a b, In a l -> In b l -> place n k a = place n k b -> a = b) ->
      NoDup (map (place n k) l)).
    { induction l as [|a l IH]; intros ND HI; [constructor|]. inversion ND; subst. cbn [map]. constructor.
      - intros Hin. apply in_map_iff in Hin. destruct Hin as (b & E & Hb). apply H1.
        rewrite (HI a b); [assumption|left; reflexivity|right; assumption|symmetry; assumption].
      - apply IH; [assumption|]. intros; apply HI; [right|right|]; assumption. }
    apply Inj; [apply seq_NoDup|]. clear Inj.
    intros a b Ha Hb E. apply in_seq in Ha, Hb. unfold place in E.
    assert (0 < Z.of_nat n)%Z by lia.
    pose proof (Z.mod_pos_bound (Z.of_nat a + k) (Z.of_nat n) H). pose proof (Z.mod_pos_bound (Z.of_nat b + k) (Z.of_nat n) H).
    apply Z2Nat.inj in E; [|lia|lia].
    pose proof (Z.div_mod (Z.of_nat a + k) (Z.of_nat n) ltac:(lia)). pose proof (Z.div_mod (Z.of_nat b + k) (Z.of_nat n) ltac:(lia)).
    assert (Z.of_nat a - Z.of_nat b = Z.of_nat n * ((Z.of_nat a + k) / Z.of_nat n - (Z.of_nat b + k) / Z.of_nat n))%Z by lia.
    assert (((Z.of_nat a + k) / Z.of_nat n - (Z.of_nat b + k) / Z.of_nat n) = 0)%Z by nia. lia.
  - rewrite map_length. lia.
  - intros v Hv. apply in_map_iff in Hv. destruct Hv as (j & <- & Hj). apply in_seq. unfold place.
    pose proof (Z.mod_pos_bound (Z.of_nat j + k) (Z.of_nat n) ltac:(lia)). lia.
Qed.

Lemma angle_place : forall n k j q, (0 < n)%nat -> exists z : Z,
  2 * PI * INR (place n k j) * INR q / INR n =
  (2 * PI * INR j * INR q / INR n + 2 * PI * IZR k * INR q / INR n) + 2 * PI * IZR z.
Proof.
  intros n k j q Hn. exists (- ((Z.of_nat j + k) / Z.of_nat n) * Z.of_nat q)%Z.
  assert (0 < INR n) by (apply lt_0_INR; assumption).
  unfold place. pose proof (Z.mod_pos_bound (Z.of_nat j + k) (Z.of_nat n) ltac:(lia)).
  rewrite INR_IZR_INZ, Z2Nat.id by lia. rewrite Z.mod_eq by lia.
  rewrite mult_IZR, opp_IZR, minus_IZR, plus_IZR, mult_IZR, <- !INR_IZR_INZ. field. lra.
Qed.

Lemma shifted_sum : forall x y k (w : nat -> R), rotated k x y ->
  rsum (map (fun j => nth j y 0 * w j) (seq 0 (length y))) =
  rsum (map (fun j => nth j x 0 * w (place (length x) k j)) (seq 0 (length x))).
Proof.
  intros x y k w (L & H). rewrite <- L.
  rewrite (rsum_perm _ (map (fun j => nth j y 0 * w j) (map (place (length x) k) (seq 0 (length x))))).
  - rewrite map_map. apply rsum_map_ext. intros j Hj. apply in_seq in Hj. f_equal.
    specialize (H (Z.of_nat j) ltac:(lia)). rewrite Nat2Z.id in H. exact H.
  - apply Permutation_map, Permutation_sym, place_perm.
Qed.

Lemma shift_power : forall x y k q, (0 < length x)%nat -> rotated k x y -> mode_power y q = mode_power x q.
Proof.
  intros x y k q Hx H. rewrite !mode_power_def. destruct H as (L & H). rewrite <- L.
  assert (H' : rotated k x y) by (split; assumption). f_equal.
  set (phi := 2 * PI * IZR k * INR q / INR (length x)).
  assert (EC : C y q = cos phi * C x q - sin phi * Sn x q).
  { unfold C at 1.
    rewrite (shifted_sum x y k (fun j => cos (2 * PI * INR j * INR q / INR (length y))) H').
    unfold C, Sn. unfold Rminus. rewrite <- Ropp_mult_distr_l_reverse, <- !rsum_map_scal, <- rsum_map_plus.
    apply rsum_map_ext. intros j _. rewrite <- L. destruct (angle_place (length x) k j q Hx) as (z & ->).
    rewrite cos_2pi, cos_plus. fold phi. ring. }
  assert (ES : Sn y q = cos phi * Sn x q + sin phi * C x q).
  { unfold Sn at 1. rewrite (shifted_sum x y k (fun j => sin (2 * PI * INR j * INR q / INR (length y))) H').
    unfold C, Sn. rewrite <- !rsum_map_scal, <- rsum_map_plus.
    apply rsum_map_ext. intros j _. rewrite <- L. destruct (angle_place (length x) k j q Hx) as (z & ->).
    rewrite sin_2pi, sin_plus. fold phi. ring. }
  rewrite EC, ES. pose proof (sin2_cos2 phi) as E. unfold Rsqr in E.
  replace ((cos phi * C x q - sin phi * Sn x q) ^ 2 + (cos phi * Sn x q + sin phi * C x q) ^ 2) with
    ((sin phi * sin phi + cos phi * cos phi) * (C x q ^ 2 + Sn x q ^ 2)) by ring. rewrite E. ring.
Qed.
