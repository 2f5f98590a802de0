From Coq Require Import ZArith List Bool Reals Lra Lia Psatz Permutation.
From Flocq Require Import Core.Raux.
From Coquelicot Require Import Rcomplements.
From Verif Require Import AbsorptionModel AbsorptionSpec KernelProofs.
Import ListNotations.
Local Open Scope R_scope.

(** ** Sums *)
Lemma rsum_app : forall a b, rsum (a ++ b) = rsum a + rsum b.
Proof. unfold rsum. induction a; simpl; intros; [ring|rewrite IHa; ring]. Qed.

Lemma rsum_perm : forall a b, Permutation a b -> rsum a = rsum b.
Proof. unfold rsum. induction 1; simpl; try lra. Qed.

Lemma rsum_zero : forall l, (forall x, In x l -> x = 0) -> rsum l = 0.
Proof.
  unfold rsum. induction l; simpl; intros H; [reflexivity|].
  rewrite IHl by auto. rewrite (H a) by auto. ring.
Qed.

Lemma rsum_map_ext : forall (A : Type) (f g : A -> R) l,
  (forall x, In x l -> f x = g x) -> rsum (map f l) = rsum (map g l).
Proof. intros. f_equal. apply map_ext_in. assumption. Qed.

Lemma rsum_nonneg : forall l, (forall x, In x l -> 0 <= x) -> 0 <= rsum l.
Proof.
  unfold rsum. induction l; simpl; intros H; [lra|].
  assert (0 <= a) by auto. assert (0 <= fold_right Rplus 0 l) by auto. lra.
Qed.

Lemma rsum_map_scal : forall (A : Type) c (f : A -> R) l, rsum (map (fun x => c * f x) l) = c * rsum (map f l).
Proof. unfold rsum. induction l; simpl; [ring|rewrite IHl; ring]. Qed.

Lemma rsum_fold : forall (A : Type) (f : A -> R) l acc,
  fold_left (fun t i => t + f i) l acc = acc + rsum (map f l).
Proof. unfold rsum. induction l; simpl; intros; [ring|rewrite IHl; ring]. Qed.

Lemma telescope : forall (c : R -> R) (g : nat -> R) n,
  rsum (map (fun i => c (g (S i)) - c (g i)) (seq 0 n)) = c (g n) - c (g O).
Proof.
  induction n; [unfold rsum; simpl; ring|].
  rewrite seq_S, map_app, rsum_app, IHn. unfold rsum. simpl. ring.
Qed.

(** ** Writing to a pixel *)
Lemma add_nth_spec : forall j v arr, (j < length arr)%nat ->
  exists arr', add_nth j v arr = Some arr' /\ length arr' = length arr /\
    forall i, nth i arr' 0 = nth i arr 0 + (if (i =? j)%nat then v else 0).
Proof.
  induction j; intros v arr H; destruct arr as [|x t]; simpl in H; try lia.
  - eexists. split; [reflexivity|]. split; [reflexivity|].
    intros [|i]; simpl; ring.
  - destruct (IHj v t) as (t' & E & L & N); [lia|].
    exists (x :: t'). simpl. rewrite E. split; [reflexivity|]. split; [simpl; congruence|].
    intros [|i]; simpl; [ring|apply N].
Qed.

Lemma wrap_index_mod : forall z n, (0 < n)%Z -> wrap_index z n = (z mod n)%Z.
Proof.
  intros z n Hn. unfold wrap_index.
  pose proof (Z.rem_bound_abs z n ltac:(lia)) as B.
  pose proof (Z.quot_rem z n ltac:(lia)) as Q.
  destruct (Z.ltb_spec (Z.rem z n) 0).
  - apply Z.mod_unique with (q := (Z.quot z n - 1)%Z); lia.
  - apply Z.mod_unique with (q := Z.quot z n); lia.
Qed.

Definition at_pixel (n : Z) (j : nat) (zs : list Z) : list Z :=
  filter (fun z => (z mod n =? Z.of_nat j)%Z) zs.

Lemma deposit_none : forall n v zs, deposit n v zs None = None.
Proof. unfold deposit. induction zs; simpl; auto. Qed.

Lemma deposit_spec : forall (n : nat) v zs arr, (0 < n)%nat -> length arr = n ->
  exists arr', deposit (Z.of_nat n) v zs (Some arr) = Some arr' /\ length arr' = n /\
    forall j, nth j arr' 0 = nth j arr 0 + rsum (map v (at_pixel (Z.of_nat n) j zs)).
Proof.
  intros n v zs. induction zs as [|z zs IH]; intros arr Hn Ha.
  - exists arr. split; [reflexivity|]. split; [assumption|]. intros j. unfold rsum. simpl. ring.
  - assert (Hw : wrap_index z (Z.of_nat n) = (z mod Z.of_nat n)%Z) by (apply wrap_index_mod; lia).
    assert (Hb : (0 <= z mod Z.of_nat n < Z.of_nat n)%Z) by (apply Z.mod_pos_bound; lia).
    destruct (add_nth_spec (Z.to_nat (z mod Z.of_nat n)) (v z) arr) as (a1 & E1 & L1 & N1); [lia|].
    destruct (IH a1 Hn ltac:(congruence)) as (a2 & E2 & L2 & N2).
    exists a2. split; [|split; [assumption|]].
    + unfold deposit in *. simpl. rewrite Hw. unfold add_at.
      destruct (Z.ltb_spec (z mod Z.of_nat n) 0); [lia|]. rewrite E1. exact E2.
    + intros j. rewrite N2, N1. unfold at_pixel. simpl.
      destruct (Z.eqb_spec (z mod Z.of_nat n) (Z.of_nat j)) as [Ej|Ej];
        destruct (Nat.eqb_spec j (Z.to_nat (z mod Z.of_nat n))) as [Ek|Ek]; try lia.
      * unfold rsum at 2. simpl. fold (rsum (map v (filter (fun z0 => (z0 mod Z.of_nat n =? Z.of_nat j)%Z) zs))). ring.
      * ring.
Qed.

Lemma rsum_nth : forall l n, length l = n -> rsum l = rsum (map (fun j => nth j l 0) (seq 0 n)).
Proof.
  induction l; intros n H; subst n; [reflexivity|].
  simpl length. simpl seq. rewrite <- seq_shift. simpl map. rewrite map_map.
  unfold rsum. simpl. fold (rsum l). rewrite (IHl _ eq_refl). reflexivity.
Qed.

Lemma rsum_map_plus : forall (A : Type) (f g : A -> R) l,
  rsum (map (fun x => f x + g x) l) = rsum (map f l) + rsum (map g l).
Proof. unfold rsum. induction l; simpl; [ring|rewrite IHl; ring]. Qed.

(** Each deposited value ends in exactly one pixel. *)
Lemma at_pixel_total : forall (n : nat) (v : Z -> R) zs, (0 < n)%nat ->
  rsum (map (fun j => rsum (map v (at_pixel (Z.of_nat n) j zs))) (seq 0 n)) = rsum (map v zs).
Proof.
  intros n v zs Hn. induction zs as [|z zs IH].
  - simpl. apply rsum_zero. intros x Hx. apply in_map_iff in Hx. destruct Hx as (j & <- & _). reflexivity.
  - assert (Hb : (0 <= z mod Z.of_nat n < Z.of_nat n)%Z) by (apply Z.mod_pos_bound; lia).
    rewrite (rsum_map_ext _ _ (fun j =>
       (if (j =? Z.to_nat (z mod Z.of_nat n))%nat then v z else 0) +
       rsum (map v (at_pixel (Z.of_nat n) j zs)))).
    2:{ intros j _. unfold at_pixel. simpl.
        destruct (Z.eqb_spec (z mod Z.of_nat n) (Z.of_nat j));
          destruct (Nat.eqb_spec j (Z.to_nat (z mod Z.of_nat n))); try lia.
        - reflexivity.
        - ring. }
    rewrite rsum_map_plus, IH. unfold rsum at 3. simpl. fold (rsum (map v zs)). f_equal.
    assert (G : forall k m d, (m <= k < m + d)%nat ->
       rsum (map (fun j => if (j =? k)%nat then v z else 0) (seq m d)) = v z).
    { intros k m d. revert m. induction d; intros m Hm; [lia|]. simpl.
      unfold rsum. simpl. fold (rsum (map (fun j => if (j =? k)%nat then v z else 0) (seq (S m) d))).
      destruct (Nat.eqb_spec m k).
      - rewrite rsum_zero; [ring|]. intros x Hx. apply in_map_iff in Hx.
        destruct Hx as (i & <- & Hi). apply in_seq in Hi. destruct (Nat.eqb_spec i k); [lia|reflexivity].
      - rewrite IHd by lia. ring. }
    apply G. lia.
Qed.

Lemma deposit_total : forall (n : nat) v zs arr arr', (0 < n)%nat -> length arr = n ->
  deposit (Z.of_nat n) v zs (Some arr) = Some arr' -> rsum arr' = rsum arr + rsum (map v zs).
Proof.
  intros n v zs arr arr' Hn Ha E.
  destruct (deposit_spec n v zs arr Hn Ha) as (a & E' & L & N). rewrite E in E'. injection E' as <-.
  rewrite (rsum_nth arr' n L), (rsum_nth arr n Ha).
  rewrite (rsum_map_ext _ _ _ _ (fun j _ => N j)), rsum_map_plus, at_pixel_total by assumption.
  reflexivity.
Qed.

Lemma in_zrange_up : forall a n z, In z (zrange_up a n) <-> (a <= z < a + Z.of_nat n)%Z.
Proof.
  intros a n z. unfold zrange_up. rewrite in_map_iff. split.
  - intros (i & <- & Hi). apply in_seq in Hi. lia.
  - intros H. exists (Z.to_nat (z - a)). split; [lia|]. apply in_seq. lia.
Qed.

Lemma NoDup_zrange_up : forall a n, NoDup (zrange_up a n).
Proof.
  intros. unfold zrange_up. apply FinFun.Injective_map_NoDup; [|apply seq_NoDup].
  intros x y H. lia.
Qed.

(** ** Kernel fractions *)
Ltac split_minmax :=
  repeat match goal with
  | |- context [Rle_dec ?a ?b] =>
      lazymatch a with context [Rle_dec _ _] => fail | _ =>
      lazymatch b with context [Rle_dec _ _] => fail | _ => destruct (Rle_dec a b) end end
  end.

Definition clampz (r x : R) : R := Rmax (- r) (Rmin r x).

Lemma clamp_diff : forall lo hi r, lo <= hi -> 0 <= r ->
  Rmax 0 (Rmin hi r - Rmax lo (- r)) = clampz r hi - clampz r lo.
Proof.
  intros lo hi r H Hr. unfold clampz, Rmax, Rmin.
  split_minmax; lra.
Qed.

Lemma sph_frac_zero : forall K lo hi h d r, Rmin hi r <= Rmax lo (- r) -> sph_kern_frac K lo hi h d r = 0.
Proof.
  intros K lo hi h d r H. unfold sph_kern_frac. destruct (Rlt_dec _ _); [reflexivity|].
  replace (Rmin hi r - Rmax lo (- r)) with 0 by lra. unfold Rdiv at 1. rewrite !Rmult_0_l. reflexivity.
Qed.

Lemma kern_frac_zero : forall k lo hi h d r, Rmin hi r <= Rmax lo (- r) -> kern_frac k lo hi h d r = 0.
Proof.
  intros k lo hi h d r H. destruct k; simpl; try (apply sph_frac_zero; assumption).
  - unfold tophat_kern_frac. rewrite Rmax_left by lra. ring.
  - unfold arepo_kern_frac. rewrite Rmax_left by lra. ring.
Qed.

Lemma kern_frac_outside : forall k lo hi h d r, hi <= - r \/ r <= lo -> kern_frac k lo hi h d r = 0.
Proof.
  intros k lo hi h d r H. apply kern_frac_zero.
  pose proof (Rmin_l hi r). pose proof (Rmin_r hi r). pose proof (Rmax_l lo (-r)). pose proof (Rmax_r lo (-r)). lra.
Qed.

Lemma sph_frac_nonneg : forall K lo hi h d r, 0 < h -> (forall q, 0 <= q -> 0 <= K q) ->
  0 <= sph_kern_frac K lo hi h d r.
Proof.
  intros K lo hi h d r Hh HK. unfold sph_kern_frac. destruct (Rlt_dec _ _); [lra|].
  assert (Hq : forall x, 0 <= K (sqrt (d + x * x) / h)).
  { intros x. apply HK. apply Rdiv_le_0_compat; [apply sqrt_pos|assumption]. }
  apply Rmult_le_pos; [lra|].
  rewrite (rsum_fold nat (fun i => K (sqrt (d + (INR i * ((Rmin hi r - Rmax lo (- r)) / 8) + Rmax lo (- r)) *
        (INR i * ((Rmin hi r - Rmax lo (- r)) / 8) + Rmax lo (- r))) / h))).
  pose proof (Hq (Rmax lo (- r))). pose proof (Hq (Rmin hi r)).
  match goal with |- context [rsum ?l] => assert (0 <= rsum l) end.
  { apply rsum_nonneg. intros x Hx. apply in_map_iff in Hx. destruct Hx as (i & <- & _). apply Hq. }
  lra.
Qed.

Lemma kern_frac_nonneg : forall k lo hi h d r, 0 < h \/ k = TopHat \/ k = Voronoi ->
  0 <= kern_frac k lo hi h d r.
Proof.
  intros k lo hi h d r Hh.
  assert (0 < 3 / 4 / PI) by (pose proof PI_RGT_0; apply Rdiv_lt_0_compat; lra).
  destruct k; simpl.
  - unfold tophat_kern_frac. pose proof (Rmax_l 0 (Rmin hi r - Rmax lo (- r))).
    apply Rmult_le_pos; lra.
  - destruct Hh as [Hh|[|]]; try discriminate. apply sph_frac_nonneg; [lra|apply cubic_nonneg].
  - unfold arepo_kern_frac. apply Rmax_l.
  - destruct Hh as [Hh|[|]]; try discriminate. apply sph_frac_nonneg; [lra|apply quintic_nonneg].
Qed.

(** ** The column density deposit, without the case analysis on the kernel *)
Definition col_value (k : kern) (w dens c r dr2 smooth : R) (z : Z) : R :=
  dens * kern_frac k (w * IZR z - c) (w * IZR z - c + w) smooth dr2 r.

Lemma colden_unfold : forall k vbox velfac n dr2 dens pos smooth arr,
  takes_part k (vbox / velfac) dr2 smooth ->
  let c := centre k dr2 pos smooth in let r := half_extent k dr2 smooth in
  let w := vbox / IZR n / velfac in
  add_colden_particle k vbox velfac n dr2 dens pos smooth arr =
  deposit n (col_value k w dens c r dr2 smooth)
    (zrange_up (Zfloor ((c - r) / w)) (Z.to_nat (Zceil ((c + r) / w) - Zfloor ((c - r) / w) + 1)))
    (Some arr).
Proof.
  intros k vbox velfac n dr2 dens pos smooth arr T c r w.
  unfold add_colden_particle.
  destruct k; simpl in T |- *;
    try (destruct (Rle_dec (smooth * smooth - dr2) 0); [lra|]; reflexivity).
  destruct T as (T1 & T2).
  assert (E : 2 * vbox / velfac = 2 * (vbox / velfac)) by (unfold Rdiv; ring).
  rewrite E.
  destruct (Rlt_dec _ dr2); [lra|]. destruct (Rlt_dec _ smooth); [lra|]. reflexivity.
Qed.

Lemma colden_skip : forall k vbox velfac n dr2 dens pos smooth arr,
  ~ takes_part k (vbox / velfac) dr2 smooth ->
  add_colden_particle k vbox velfac n dr2 dens pos smooth arr = Some arr.
Proof.
  intros k vbox velfac n dr2 dens pos smooth arr T. unfold add_colden_particle.
  destruct k; simpl in T; try (destruct (Rle_dec (smooth * smooth - dr2) 0); [reflexivity|lra]).
  assert (E : 2 * vbox / velfac = 2 * (vbox / velfac)) by (unfold Rdiv; ring).
  rewrite E.
  destruct (Rlt_dec _ dr2); [reflexivity|]. destruct (Rlt_dec _ smooth); [reflexivity|].
  exfalso. apply T. lra.
Qed.

Lemma takes_part_dec : forall k b d s, {takes_part k b d s} + {~ takes_part k b d s}.
Proof.
  intros. destruct k; simpl; try apply Rlt_dec.
  destruct (Rle_dec d (2 * b)); destruct (Rle_dec s (2 * b)); [left; auto| | |]; right; tauto.
Qed.

Lemma half_extent_nonneg : forall k d s, (k = Voronoi -> d <= s) -> 0 <= half_extent k d s.
Proof. intros. destruct k; simpl; try apply sqrt_pos. specialize (H eq_refl). lra. Qed.

Lemma width_pos : forall vbox velfac n, 0 < vbox -> 0 < velfac -> (0 < n)%nat ->
  0 < vbox / IZR (Z.of_nat n) / velfac.
Proof.
  intros. assert (0 < IZR (Z.of_nat n)) by (apply IZR_lt; lia).
  repeat apply Rdiv_lt_0_compat; assumption.
Qed.

(** Pixels outside [zlow, zhigh] receive nothing, so the range can be extended at will. *)
Lemma col_value_outside : forall k w dens c r d s z, 0 < w ->
  (z < Zfloor ((c - r) / w))%Z \/ (Zceil ((c + r) / w) < z + 1)%Z ->
  col_value k w dens c r d s z = 0.
Proof.
  intros k w dens c r d s z Hw H. unfold col_value.
  rewrite kern_frac_outside; [ring|]. destruct H as [H|H].
  - left. assert (IZR (z + 1) <= (c - r) / w).
    { apply Rle_trans with (IZR (Zfloor ((c - r) / w))); [apply IZR_le; lia|apply Zfloor_lb]. }
    rewrite plus_IZR in H0.
    assert ((IZR z + 1) * w <= (c - r) / w * w) by (apply Rmult_le_compat_r; lra).
    replace ((c - r) / w * w) with (c - r) in H1 by (field; lra). lra.
  - right. assert ((c + r) / w <= IZR z).
    { apply Rle_trans with (IZR (Zceil ((c + r) / w))); [apply Zceil_ub|apply IZR_le; lia]. }
    assert ((c + r) / w * w <= IZR z * w) by (apply Rmult_le_compat_r; lra).
    replace ((c + r) / w * w) with (c + r) in H1 by (field; lra). lra.
Qed.

(** ** C07 *)
Lemma col_values_sum : forall (k : kern) coef w dens c r d s,
  0 < w -> 0 <= r ->
  (forall lo hi, lo <= hi -> kern_frac k lo hi s d r = coef * (clampz r hi - clampz r lo)) ->
  let zl := Zfloor ((c - r) / w) in let zh := Zceil ((c + r) / w) in
  rsum (map (col_value k w dens c r d s) (zrange_up zl (Z.to_nat (zh - zl + 1)))) = dens * (coef * (2 * r)).
Proof.
  intros k coef w dens c r d s Hw Hr HK zl zh.
  assert (Hz : (zl <= zh)%Z).
  { apply le_IZR. apply Rle_trans with ((c - r) / w); [apply Zfloor_lb|].
    apply Rle_trans with ((c + r) / w); [|apply Zceil_ub].
    apply Rmult_le_compat_r; [left; apply Rinv_0_lt_compat; lra|lra]. }
  unfold zrange_up. rewrite map_map.
  rewrite (rsum_map_ext _ _ (fun i => (dens * coef) *
     (clampz r (w * IZR (zl + Z.of_nat (S i)) - c) - clampz r (w * IZR (zl + Z.of_nat i) - c)))).
  2:{ intros i _. unfold col_value. rewrite HK by lra.
      replace (w * IZR (zl + Z.of_nat i) - c + w) with (w * IZR (zl + Z.of_nat (S i)) - c).
      - ring.
      - rewrite Nat2Z.inj_succ. rewrite !plus_IZR, succ_IZR. ring. }
  rewrite (rsum_map_scal _ (dens * coef)
     (fun i => clampz r (w * IZR (zl + Z.of_nat (S i)) - c) - clampz r (w * IZR (zl + Z.of_nat i) - c))).
  rewrite (telescope (clampz r) (fun i => w * IZR (zl + Z.of_nat i) - c)).
  assert (E1 : clampz r (w * IZR (zl + Z.of_nat (Z.to_nat (zh - zl + 1))) - c) = r).
  { replace (zl + Z.of_nat (Z.to_nat (zh - zl + 1)))%Z with (zh + 1)%Z by lia.
    assert ((c + r) / w <= IZR zh) by apply Zceil_ub.
    assert ((c + r) / w * w <= IZR zh * w) by (apply Rmult_le_compat_r; lra).
    replace ((c + r) / w * w) with (c + r) in H0 by (field; lra).
    rewrite plus_IZR. unfold clampz. rewrite Rmin_left by lra. rewrite Rmax_right by lra. reflexivity. }
  assert (E2 : clampz r (w * IZR (zl + Z.of_nat 0) - c) = - r).
  { replace (zl + Z.of_nat 0)%Z with zl by lia.
    assert (IZR zl <= (c - r) / w) by apply Zfloor_lb.
    assert (IZR zl * w <= (c - r) / w * w) by (apply Rmult_le_compat_r; lra).
    replace ((c - r) / w * w) with (c - r) in H0 by (field; lra).
    unfold clampz. rewrite Rmin_right by lra. rewrite Rmax_left by lra. reflexivity. }
  rewrite E1, E2. ring.
Qed.

Lemma C07_tophat_aux : forall vbox velfac (n : nat) dr2 dens pos smooth colden,
  0 < vbox -> 0 < velfac -> (0 < n)%nat -> length colden = n -> dr2 < smooth * smooth ->
  exists colden',
    add_colden_particle TopHat vbox velfac (Z.of_nat n) dr2 dens pos smooth colden = Some colden' /\
    rsum colden' = rsum colden + dens * (3 / (4 * PI) * (2 * sqrt (smooth * smooth - dr2))).
Proof.
  intros vbox velfac n dr2 dens pos smooth colden Hv Hf Hn Hl Hd.
  rewrite colden_unfold by (simpl; lra). simpl centre. simpl half_extent.
  destruct (deposit_spec n (col_value TopHat (vbox / IZR (Z.of_nat n) / velfac) dens pos
     (sqrt (smooth * smooth - dr2)) dr2 smooth)
     (zrange_up (Zfloor ((pos - sqrt (smooth * smooth - dr2)) / (vbox / IZR (Z.of_nat n) / velfac)))
       (Z.to_nat (Zceil ((pos + sqrt (smooth * smooth - dr2)) / (vbox / IZR (Z.of_nat n) / velfac)) -
          Zfloor ((pos - sqrt (smooth * smooth - dr2)) / (vbox / IZR (Z.of_nat n) / velfac)) + 1)))
     colden Hn Hl) as (a & E & La & _).
  exists a. split; [exact E|]. rewrite (deposit_total n _ _ _ _ Hn Hl E).
  rewrite (col_values_sum TopHat (3 / 4 / PI)).
  - f_equal. f_equal. f_equal. field. pose proof PI_RGT_0. lra.
  - apply width_pos; assumption.
  - apply sqrt_pos.
  - intros lo hi H. simpl. unfold tophat_kern_frac. rewrite clamp_diff; [reflexivity|lra|apply sqrt_pos].
Qed.

Lemma C07_voronoi_aux : forall vbox velfac (n : nat) low high dens pos colden,
  0 < vbox -> 0 < velfac -> (0 < n)%nat -> length colden = n ->
  low <= high -> high <= 2 * (vbox / velfac) ->
  exists colden',
    add_colden_particle Voronoi vbox velfac (Z.of_nat n) low dens pos high colden = Some colden' /\
    rsum colden' = rsum colden + dens * (high - low).
Proof.
  intros vbox velfac n low high dens pos colden Hv Hf Hn Hl Ho Hh.
  rewrite colden_unfold by (simpl; lra). simpl centre. simpl half_extent.
  match goal with |- context [deposit _ ?v ?zs _] =>
    destruct (deposit_spec n v zs colden Hn Hl) as (a & E & La & _) end.
  exists a. split; [exact E|]. rewrite (deposit_total n _ _ _ _ Hn Hl E).
  rewrite (col_values_sum Voronoi 1).
  - f_equal. f_equal. field.
  - apply width_pos; assumption.
  - lra.
  - intros lo hi H. simpl. unfold arepo_kern_frac. rewrite clamp_diff by lra. ring.
Qed.

(** ** C08 *)
Lemma colden_total_function : forall k vbox velfac (n : nat) dr2 dens pos smooth colden,
  (0 < n)%nat -> length colden = n ->
  exists colden',
    add_colden_particle k vbox velfac (Z.of_nat n) dr2 dens pos smooth colden = Some colden' /\
    length colden' = n.
Proof.
  intros k vbox velfac n dr2 dens pos smooth colden Hn Hl.
  destruct (takes_part_dec k (vbox / velfac) dr2 smooth) as [T|T].
  - rewrite colden_unfold by assumption.
    match goal with |- context [deposit _ ?v ?zs _] =>
      destruct (deposit_spec n v zs colden Hn Hl) as (a & E & La & _) end.
    exists a. auto.
  - rewrite colden_skip by assumption. eauto.
Qed.

Lemma colden_pixel : forall k vbox velfac (n : nat) dr2 dens pos smooth colden colden',
  (0 < n)%nat -> length colden = n -> takes_part k (vbox / velfac) dr2 smooth ->
  add_colden_particle k vbox velfac (Z.of_nat n) dr2 dens pos smooth colden = Some colden' ->
  let c := centre k dr2 pos smooth in let r := half_extent k dr2 smooth in
  let w := vbox / IZR (Z.of_nat n) / velfac in
  forall j, nth j colden' 0 = nth j colden 0 +
    rsum (map (col_value k w dens c r dr2 smooth) (at_pixel (Z.of_nat n) j
      (zrange_up (Zfloor ((c - r) / w)) (Z.to_nat (Zceil ((c + r) / w) - Zfloor ((c - r) / w) + 1))))).
Proof.
  intros k vbox velfac n dr2 dens pos smooth colden colden' Hn Hl T E c r w j.
  rewrite colden_unfold in E by assumption. fold c r w in E.
  match type of E with deposit _ ?v ?zs _ = _ =>
    destruct (deposit_spec n v zs colden Hn Hl) as (a & E' & La & N) end.
  rewrite E in E'. injection E' as <-. apply N.
Qed.

(** All the values reaching one pixel, as one sum over the periods. *)
Lemma at_pixel_periods : forall (n : nat) (j : nat) (v : Z -> R) zl len, (0 < n)%nat -> (j < n)%nat ->
  (forall z, ~ In z (zrange_up zl len) -> v z = 0) ->
  exists M0, forall M, (M0 <= M)%nat ->
    rsum (map v (at_pixel (Z.of_nat n) j (zrange_up zl len))) =
    zsum M (fun m => v (Z.of_nat j + m * Z.of_nat n)%Z).
Proof.
  intros n j v zl len Hn Hj Hv.
  exists (Z.to_nat (Z.abs zl) + len + 1)%nat. intros M HM.
  set (full := map (fun i => (Z.of_nat j + (Z.of_nat i - Z.of_nat M) * Z.of_nat n)%Z) (seq 0 (2 * M + 1))).
  transitivity (rsum (map v full)).
  2:{ unfold zsum, full. rewrite map_map. reflexivity. }
  assert (Hin : forall z, In z (at_pixel (Z.of_nat n) j (zrange_up zl len)) -> In z full).
  { intros z Hz. apply filter_In in Hz. destruct Hz as (Hz & Hm).
    apply in_zrange_up in Hz. apply Z.eqb_eq in Hm. apply in_map_iff.
    pose proof (Z.div_mod z (Z.of_nat n) ltac:(lia)) as D. rewrite Hm in D.
    assert (B : (- Z.of_nat M <= z / Z.of_nat n <= Z.of_nat M)%Z) by nia.
    exists (Z.to_nat (z / Z.of_nat n + Z.of_nat M)). split; [|apply in_seq; lia].
    rewrite Z2Nat.id by lia. lia. }
  assert (Nf : NoDup full).
  { apply FinFun.Injective_map_NoDup; [|apply seq_NoDup]. intros x y H. nia. }
  assert (Na : NoDup (at_pixel (Z.of_nat n) j (zrange_up zl len))) by (apply NoDup_filter, NoDup_zrange_up).
  (* the rest of full is zero *)
  assert (G : forall small big, NoDup small -> NoDup big -> (forall z, In z small -> In z big) ->
      (forall z, In z big -> ~ In z small -> v z = 0) -> rsum (map v small) = rsum (map v big)).
  { induction small as [|a s IH]; intros big Ns Nb Hi Hz.
    - symmetry. apply rsum_zero. intros x Hx. apply in_map_iff in Hx. destruct Hx as (z & <- & Hz').
      apply Hz; auto.
    - destruct (in_split a big (Hi a (or_introl eq_refl))) as (l1 & l2 & ->).
      inversion Ns; subst.
      assert (Nb' : NoDup (l1 ++ l2)) by (eapply NoDup_remove_1; eauto).
      assert (Na' : ~ In a (l1 ++ l2)) by (eapply NoDup_remove_2; eauto).
      rewrite (map_app v l1 (a :: l2)), rsum_app. simpl map. unfold rsum at 1 3. simpl.
      fold (rsum (map v s)). fold (rsum (map v l2)).
      rewrite (IH (l1 ++ l2)); auto.
      + rewrite map_app, rsum_app. ring.
      + intros z Hzs. assert (In z (l1 ++ a :: l2)) by (apply Hi; right; auto).
        apply in_app_iff in H. apply in_app_iff. destruct H as [?|[?|?]]; auto. subst. contradiction.
      + intros z Hzb Hzs. apply Hz.
        * apply in_app_iff in Hzb. apply in_app_iff. simpl. tauto.
        * intros [->|?]; contradiction. }
  apply G; auto.
  intros z Hz Hn'. apply Hv. intros Hr. apply Hn'. apply filter_In. split; [assumption|].
  apply in_map_iff in Hz. destruct Hz as (i & <- & _). apply Z.eqb_eq.
  rewrite Z.mod_add by lia. apply Z.mod_small. lia.
Qed.

Lemma colden_pixel_periods : forall k vbox velfac (n : nat) dr2 dens pos smooth colden colden',
  0 < vbox -> 0 < velfac -> (0 < n)%nat -> length colden = n ->
  takes_part k (vbox / velfac) dr2 smooth ->
  add_colden_particle k vbox velfac (Z.of_nat n) dr2 dens pos smooth colden = Some colden' ->
  let c := centre k dr2 pos smooth in let r := half_extent k dr2 smooth in
  let w := vbox / IZR (Z.of_nat n) / velfac in
  forall j, (j < n)%nat ->
  exists M0, forall M, (M0 <= M)%nat ->
    nth j colden' 0 = nth j colden 0 +
      zsum M (fun m => col_value k w dens c r dr2 smooth (Z.of_nat j + m * Z.of_nat n)).
Proof.
  intros k vbox velfac n dr2 dens pos smooth colden colden' Hv Hf Hn Hl T E c r w j Hj.
  pose proof (colden_pixel k vbox velfac n dr2 dens pos smooth colden colden' Hn Hl T E j) as N.
  fold c r w in N.
  assert (Hw : 0 < w) by (apply width_pos; assumption).
  destruct (at_pixel_periods n j (col_value k w dens c r dr2 smooth) (Zfloor ((c - r) / w))
     (Z.to_nat (Zceil ((c + r) / w) - Zfloor ((c - r) / w) + 1)) Hn Hj) as (M0 & HM).
  { intros z Hz. apply col_value_outside; [assumption|].
    rewrite in_zrange_up in Hz. lia. }
  exists M0. intros M H. rewrite N, (HM M H). reflexivity.
Qed.

Lemma overlap_shift : forall a b c d x, overlap (a - x) (b - x) (c - x) (d - x) = overlap a b c d.
Proof.
  intros. unfold overlap, Rmax, Rmin.
  split_minmax; lra.
Qed.

Lemma C08_tophat_pixels_aux : forall vbox velfac (n : nat) dr2 dens pos smooth colden colden',
  0 < vbox -> 0 < velfac -> (0 < n)%nat -> length colden = n -> dr2 < smooth * smooth ->
  add_colden_particle TopHat vbox velfac (Z.of_nat n) dr2 dens pos smooth colden = Some colden' ->
  let r := sqrt (smooth * smooth - dr2) in let w := vbox / velfac / INR n in
  forall j, (j < n)%nat ->
  exists M0, forall M, (M0 <= M)%nat ->
    nth j colden' 0 = nth j colden 0 + dens * (3 / (4 * PI) *
      zsum M (fun m => overlap (pos - r) (pos + r)
                         (IZR (Z.of_nat j + m * Z.of_nat n) * w)
                         (IZR (Z.of_nat j + m * Z.of_nat n + 1) * w))).
Proof.
  intros vbox velfac n dr2 dens pos smooth colden colden' Hv Hf Hn Hl Hd E r w j Hj.
  destruct (colden_pixel_periods TopHat vbox velfac n dr2 dens pos smooth colden colden' Hv Hf Hn Hl Hd E j Hj)
    as (M0 & HM).
  exists M0. intros M H. rewrite (HM M H). f_equal.
  assert (Hn0 : INR n <> 0) by (apply not_0_INR; lia).
  unfold zsum. rewrite <- !rsum_map_scal. apply rsum_map_ext. intros i _.
  unfold col_value. simpl. unfold tophat_kern_frac. simpl centre. simpl half_extent. fold r.
  rewrite <- (overlap_shift (pos - r) (pos + r) _ _ pos). unfold overlap.
  set (z := (Z.of_nat j + (Z.of_nat i - Z.of_nat M) * Z.of_nat n)%Z).
  replace (vbox / IZR (Z.of_nat n) / velfac) with w
    by (unfold w; rewrite <- INR_IZR_INZ; field; lra).
  replace (pos - r - pos) with (- r) by ring. replace (pos + r - pos) with r by ring.
  replace (IZR (z + 1) * w - pos) with (w * IZR z - pos + w) by (rewrite plus_IZR; ring).
  rewrite (Rmult_comm (IZR z) w).
  rewrite (Rmin_comm r), (Rmax_comm (- r)).
  field. pose proof PI_RGT_0. lra.
Qed.

Lemma C08_voronoi_pixels_aux : forall vbox velfac (n : nat) low high dens pos colden colden',
  0 < vbox -> 0 < velfac -> (0 < n)%nat -> length colden = n ->
  low <= high -> high <= 2 * (vbox / velfac) ->
  add_colden_particle Voronoi vbox velfac (Z.of_nat n) low dens pos high colden = Some colden' ->
  let w := vbox / velfac / INR n in
  forall j, (j < n)%nat ->
  exists M0, forall M, (M0 <= M)%nat ->
    nth j colden' 0 = nth j colden 0 + dens *
      zsum M (fun m => overlap low high
                         (IZR (Z.of_nat j + m * Z.of_nat n) * w)
                         (IZR (Z.of_nat j + m * Z.of_nat n + 1) * w)).
Proof.
  intros vbox velfac n low high dens pos colden colden' Hv Hf Hn Hl Ho Hh E w j Hj.
  destruct (colden_pixel_periods Voronoi vbox velfac n low dens pos high colden colden' Hv Hf Hn Hl
     ltac:(simpl; lra) E j Hj)
    as (M0 & HM).
  exists M0. intros M H. rewrite (HM M H). f_equal.
  assert (Hn0 : INR n <> 0) by (apply not_0_INR; lia).
  unfold zsum. rewrite <- !rsum_map_scal. apply rsum_map_ext. intros i _.
  unfold col_value. simpl. unfold arepo_kern_frac. simpl centre. simpl half_extent.
  rewrite <- (overlap_shift low high _ _ ((low + high) / 2)). unfold overlap.
  set (z := (Z.of_nat j + (Z.of_nat i - Z.of_nat M) * Z.of_nat n)%Z).
  replace (vbox / IZR (Z.of_nat n) / velfac) with w
    by (unfold w; rewrite <- INR_IZR_INZ; field; lra).
  replace (IZR (z + 1) * w - (low + high) / 2) with (w * IZR z - (low + high) / 2 + w) by (rewrite plus_IZR; ring).
  rewrite (Rmult_comm (IZR z) w).
  replace (low - (low + high) / 2) with (- ((high - low) / 2)) by field.
  replace (high - (low + high) / 2) with ((high - low) / 2) by field.
  rewrite (Rmin_comm ((high - low) / 2)), (Rmax_comm (- ((high - low) / 2))).
  reflexivity.
Qed.

(** The SPH kernels: each covered stretch is integrated by the trapezium rule. *)
Lemma sph_frac_trapezium : forall K lo hi h d r,
  sph_kern_frac K lo hi h d r =
  if Rlt_dec (Rmin hi r) (Rmax lo (- r)) then 0
  else trapezium (fun z => K (sqrt (d + z * z) / h)) (Rmax lo (- r)) (Rmin hi r) 8.
Proof.
  intros. unfold sph_kern_frac. destruct (Rlt_dec _ _); [reflexivity|].
  unfold trapezium.
  rewrite (rsum_fold nat (fun i => K (sqrt (d + (INR i * ((Rmin hi r - Rmax lo (- r)) / 8) + Rmax lo (- r)) *
        (INR i * ((Rmin hi r - Rmax lo (- r)) / 8) + Rmax lo (- r))) / h))).
  assert (E8 : INR 8 = 8) by (simpl; lra). rewrite E8. f_equal. f_equal. f_equal.
  change (8 - 1)%nat with 7%nat. apply rsum_map_ext. intros i _.
  rewrite (Rplus_comm (Rmax lo (- r))). reflexivity.
Qed.

Lemma C12_splines_aux : forall q, 0 <= q ->
  sph_cubic_kernel q = cubic_spline q /\ sph_quintic_kernel q = quintic_spline q.
Proof.
  intros q Hq. pose proof PI_neq0 as HP. split.
  - unfold sph_cubic_kernel, cubic_spline. destruct (Rle_dec 1 q).
    + rewrite !Rmax_left by lra. field. assumption.
    + rewrite (Rmax_right 0 (1 - q)) by lra. destruct (Rlt_dec q (1 / 2)).
      * rewrite Rmax_right by lra. field. assumption.
      * rewrite Rmax_left by lra. field. assumption.
  - unfold sph_quintic_kernel, quintic_spline. destruct (Rle_dec 1 q).
    + rewrite !Rmax_left by lra. field. assumption.
    + rewrite (Rmax_right 0 (1 - q)) by lra. destruct (Rlt_dec q (1 / 3)).
      * rewrite !Rmax_right by lra. field. assumption.
      * rewrite (Rmax_left 0 (1 / 3 - q)) by lra. destruct (Rlt_dec q (2 / 3)).
        -- rewrite Rmax_right by lra. field. assumption.
        -- rewrite Rmax_left by lra. field. assumption.
Qed.

Lemma trapezium_ext : forall f g a b n, (forall x, f x = g x) -> trapezium f a b n = trapezium g a b n.
Proof. intros f g a b n H. unfold trapezium. rewrite !H. do 3 f_equal. apply rsum_map_ext. intros. apply H. Qed.

Lemma trapezium_shift : forall f a b n x, trapezium (fun z => f (z - x)) (a + x) (b + x) n = trapezium f a b n.
Proof.
  intros f a b n x. unfold trapezium. replace (b + x - (a + x)) with (b - a) by ring.
  replace (a + x - x) with a by ring. replace (b + x - x) with b by ring. do 3 f_equal.
  apply rsum_map_ext. intros i _. f_equal. ring.
Qed.

Lemma C08_sph_pixels_aux : forall k vbox velfac (n : nat) dr2 dens pos smooth colden colden',
  k = Cubic \/ k = Quintic ->
  0 < vbox -> 0 < velfac -> (0 < n)%nat -> length colden = n -> 0 <= dr2 -> 0 < smooth -> dr2 < smooth * smooth ->
  add_colden_particle k vbox velfac (Z.of_nat n) dr2 dens pos smooth colden = Some colden' ->
  let r := sqrt (smooth * smooth - dr2) in let w := vbox / velfac / INR n in
  let W := match k with Cubic => cubic_spline | _ => quintic_spline end in
  forall j, (j < n)%nat ->
  exists M0, forall M, (M0 <= M)%nat ->
    nth j colden' 0 = nth j colden 0 + dens *
      zsum M (fun m => trapezium_on (fun z => W (sqrt (dr2 + (z - pos) * (z - pos)) / smooth)) (pos - r) (pos + r)
                         (IZR (Z.of_nat j + m * Z.of_nat n) * w)
                         (IZR (Z.of_nat j + m * Z.of_nat n + 1) * w) 8).
Proof.
  intros k vbox velfac n dr2 dens pos smooth colden colden' Hk Hv Hf Hn Hl Hd0 Hs Hd E r w W j Hj.
  assert (T : takes_part k (vbox / velfac) dr2 smooth) by (destruct Hk as [->| ->]; assumption).
  destruct (colden_pixel_periods k vbox velfac n dr2 dens pos smooth colden colden' Hv Hf Hn Hl T E j Hj)
    as (M0 & HM).
  exists M0. intros M H. rewrite (HM M H). f_equal.
  assert (Hn0 : INR n <> 0) by (apply not_0_INR; lia).
  unfold zsum. rewrite <- !rsum_map_scal. apply rsum_map_ext. intros i _.
  set (z := (Z.of_nat j + (Z.of_nat i - Z.of_nat M) * Z.of_nat n)%Z).
  unfold col_value.
  replace (vbox / IZR (Z.of_nat n) / velfac) with w
    by (unfold w; rewrite <- INR_IZR_INZ; field; lra).
  assert (C : centre k dr2 pos smooth = pos /\ half_extent k dr2 smooth = r)
    by (destruct Hk as [->| ->]; split; reflexivity).
  destruct C as (C1 & C2). rewrite C1, C2.
  set (K := match k with Cubic => sph_cubic_kernel | _ => sph_quintic_kernel end).
  assert (KF : kern_frac k = sph_kern_frac K) by (destruct Hk as [->| ->]; reflexivity).
  rewrite KF, sph_frac_trapezium.
  assert (KW : forall q, 0 <= q -> K q = W q).
  { intros q Hq. destruct (C12_splines_aux q Hq). destruct Hk as [->| ->]; assumption. }
  rewrite (trapezium_ext _ (fun u => W (sqrt (dr2 + u * u) / smooth))).
  2:{ intros u. apply KW. apply Rmult_le_pos; [apply sqrt_pos|]. apply Rlt_le, Rinv_0_lt_compat. assumption. }
  unfold trapezium_on.
  assert (A1 : Rmax (pos - r) (IZR z * w) = Rmax (w * IZR z - pos) (- r) + pos)
    by (unfold Rmax; split_minmax; lra).
  assert (A2 : Rmin (pos + r) (IZR (z + 1) * w) = Rmin (w * IZR z - pos + w) r + pos)
    by (rewrite plus_IZR; unfold Rmin; split_minmax; lra).
  rewrite A1, A2.
  match goal with |- context [Rlt_dec (?a + pos) (?b + pos)] => destruct (Rlt_dec (a + pos) (b + pos)) end;
  match goal with |- context [Rlt_dec ?a ?b] => destruct (Rlt_dec a b) end; try lra.
  rewrite (trapezium_shift (fun u => W (sqrt (dr2 + u * u) / smooth))). ring.
Qed.

Lemma C08_no_overlap_aux : forall k vbox velfac (n : nat) dr2 dens pos smooth colden colden',
  0 < vbox -> 0 < velfac -> (0 < n)%nat -> length colden = n -> takes_part k (vbox / velfac) dr2 smooth ->
  add_colden_particle k vbox velfac (Z.of_nat n) dr2 dens pos smooth colden = Some colden' ->
  let c := centre k dr2 pos smooth in let r := half_extent k dr2 smooth in
  forall j, (j < n)%nat ->
  ~ pixel_meets (vbox / velfac / INR n) (Z.of_nat n) (Z.of_nat j) (c - r) (c + r) ->
  nth j colden' 0 = nth j colden 0.
Proof.
  intros k vbox velfac n dr2 dens pos smooth colden colden' Hv Hf Hn Hl T E c r j Hj Hno.
  destruct (colden_pixel_periods k vbox velfac n dr2 dens pos smooth colden colden' Hv Hf Hn Hl T E j Hj)
    as (M0 & HM).
  rewrite (HM M0 (le_n _)). fold c r.
  assert (Hn0 : INR n <> 0) by (apply not_0_INR; lia).
  replace (vbox / IZR (Z.of_nat n) / velfac) with (vbox / velfac / INR n)
    by (rewrite <- INR_IZR_INZ; field; lra).
  set (w := vbox / velfac / INR n) in *.
  assert (Hw : 0 < w).
  { unfold w. assert (0 < INR n) by (apply lt_0_INR; lia). repeat apply Rdiv_lt_0_compat; assumption. }
  replace (zsum _ _) with 0; [ring|]. symmetry. unfold zsum. apply rsum_zero.
  intros x Hx. apply in_map_iff in Hx. destruct Hx as (i & <- & _).
  set (m := (Z.of_nat i - Z.of_nat M0)%Z). set (z := (Z.of_nat j + m * Z.of_nat n)%Z).
  unfold col_value. rewrite kern_frac_zero; [ring|].
  apply Rnot_lt_le. intros Hlt. apply Hno.
  set (lo := w * IZR z - c) in *. set (hi := lo + w) in *.
  exists ((Rmax lo (- r) + Rmin hi r) / 2 + c), m. fold z.
  pose proof (Rmin_l hi r). pose proof (Rmin_r hi r). pose proof (Rmax_l lo (-r)). pose proof (Rmax_r lo (-r)).
  rewrite plus_IZR. unfold hi, lo in *. split; lra.
Qed.

Lemma C08_nonneg_aux : forall k vbox velfac (n : nat) dr2 dens pos smooth colden colden',
  (0 < n)%nat -> length colden = n -> 0 <= dens -> 0 < smooth \/ k = TopHat \/ k = Voronoi ->
  add_colden_particle k vbox velfac (Z.of_nat n) dr2 dens pos smooth colden = Some colden' ->
  forall j, nth j colden 0 <= nth j colden' 0.
Proof.
  intros k vbox velfac n dr2 dens pos smooth colden colden' Hn Hl Hd Hs E j.
  destruct (takes_part_dec k (vbox / velfac) dr2 smooth) as [T|T].
  - rewrite (colden_pixel k vbox velfac n dr2 dens pos smooth colden colden' Hn Hl T E j).
    match goal with |- _ <= _ + rsum ?l => assert (0 <= rsum l) end; [|lra].
    apply rsum_nonneg. intros x Hx. apply in_map_iff in Hx. destruct Hx as (z & <- & _).
    apply Rmult_le_pos; [assumption|]. apply kern_frac_nonneg. assumption.
  - rewrite colden_skip in E by assumption. injection E as <-. lra.
Qed.

(** ** C09 *)
Lemma nth_mod_shift : forall (n : nat) (k : Z) j, (0 < n)%nat -> (0 <= j < Z.of_nat n)%Z ->
  (0 <= (j + k) mod Z.of_nat n < Z.of_nat n)%Z.
Proof. intros. apply Z.mod_pos_bound. lia. Qed.

Lemma at_pixel_shift : forall (n : nat) k (v v' : Z -> R) zl len j, (0 < n)%nat ->
  (0 <= j < Z.of_nat n)%Z ->
  (forall z, v' (z + k)%Z = v z) ->
  map v' (at_pixel (Z.of_nat n) (Z.to_nat ((j + k) mod Z.of_nat n)) (zrange_up (zl + k) len)) =
  map v (at_pixel (Z.of_nat n) (Z.to_nat j) (zrange_up zl len)).
Proof.
  intros n k v v' zl len j Hn Hj Hv.
  pose proof (nth_mod_shift n k j Hn Hj) as Hb.
  unfold zrange_up. set (l := seq 0 len). clearbody l.
  induction l as [|i l IH]; [reflexivity|]. simpl map at 2 4. unfold at_pixel in *. cbn [filter].
  rewrite !Z2Nat.id in * by lia.
  replace (zl + k + Z.of_nat i)%Z with (zl + Z.of_nat i + k)%Z by lia.
  assert (Q : ((zl + Z.of_nat i + k) mod Z.of_nat n =? (j + k) mod Z.of_nat n)%Z =
              ((zl + Z.of_nat i) mod Z.of_nat n =? j)%Z).
  { apply eq_true_iff_eq. rewrite !Z.eqb_eq. split; intros H.
    - assert (H' : ((zl + Z.of_nat i + k - k) mod Z.of_nat n = (j + k - k) mod Z.of_nat n)%Z).
      { rewrite <- (Zminus_mod_idemp_l (_ + k)), H, Zminus_mod_idemp_l. reflexivity. }
      replace (zl + Z.of_nat i + k - k)%Z with (zl + Z.of_nat i)%Z in H' by lia.
      replace (j + k - k)%Z with j in H' by lia. rewrite H'. apply Z.mod_small. lia.
    - rewrite <- (Zplus_mod_idemp_l (zl + Z.of_nat i)), H. reflexivity. }
  rewrite Q. destruct (_ =? j)%Z; [|exact IH]. cbn [map]. rewrite Hv. f_equal. exact IH.
Qed.

Lemma shift_floor : forall x w k, w <> 0 -> Zfloor ((x + IZR k * w) / w) = (Zfloor (x / w) + k)%Z.
Proof.
  intros x w k Hw. replace ((x + IZR k * w) / w) with (x / w + IZR k) by (field; assumption).
  apply Zfloor_imp. rewrite plus_IZR, plus_IZR, plus_IZR.
  pose proof (Zfloor_lb (x / w)). pose proof (Zfloor_ub (x / w)). lra.
Qed.

Lemma shift_ceil : forall x w k, w <> 0 -> Zceil ((x + IZR k * w) / w) = (Zceil (x / w) + k)%Z.
Proof.
  intros x w k Hw. unfold Zceil.
  replace (- ((x + IZR k * w) / w)) with ((- x + IZR (- k) * w) / w) by (rewrite opp_IZR; field; assumption).
  rewrite shift_floor by assumption. replace (- x / w) with (- (x / w)) by (field; assumption). lia.
Qed.

(** Moving the centre by k pixels, whatever the kernel does with the other arguments. *)
Lemma deposit_shift : forall (n : nat) k v v' zl len arr arr1 arr2, (0 < n)%nat -> length arr = n ->
  (forall j, nth j arr 0 = 0) ->
  (forall z, v' (z + k)%Z = v z) ->
  deposit (Z.of_nat n) v (zrange_up zl len) (Some arr) = Some arr1 ->
  deposit (Z.of_nat n) v' (zrange_up (zl + k) len) (Some arr) = Some arr2 ->
  rotated k arr1 arr2.
Proof.
  intros n k v v' zl len arr arr1 arr2 Hn Hl Hz Hv E1 E2.
  destruct (deposit_spec n v (zrange_up zl len) arr Hn Hl) as (a1 & F1 & L1 & N1).
  rewrite E1 in F1. injection F1 as <-.
  destruct (deposit_spec n v' (zrange_up (zl + k) len) arr Hn Hl) as (a2 & F2 & L2 & N2).
  rewrite E2 in F2. injection F2 as <-.
  split; [congruence|]. intros j Hj. rewrite L1 in *.
  rewrite N1, N2, !Hz, (at_pixel_shift n k v v') by assumption. reflexivity.
Qed.

Lemma nth_repeat0 : forall n j, nth j (repeat 0 n) 0 = 0.
Proof. induction n; destruct j; simpl; auto. Qed.

Lemma C09_shift_aux : forall k vbox velfac (n : nat) dr2 dens pos smooth (s : Z) a1 a2,
  k <> Voronoi -> 0 < vbox -> 0 < velfac -> (0 < n)%nat ->
  let w := vbox / velfac / INR n in
  add_colden_particle k vbox velfac (Z.of_nat n) dr2 dens pos smooth (repeat 0 n) = Some a1 ->
  add_colden_particle k vbox velfac (Z.of_nat n) dr2 dens (pos + IZR s * w) smooth (repeat 0 n) = Some a2 ->
  rotated s a1 a2.
Proof.
  intros k vbox velfac n dr2 dens pos smooth s a1 a2 Hk Hv Hf Hn w E1 E2.
  assert (Hn0 : INR n <> 0) by (apply not_0_INR; lia).
  assert (Ew : vbox / IZR (Z.of_nat n) / velfac = w)
    by (unfold w; rewrite <- INR_IZR_INZ; field; lra).
  assert (Hw : 0 < w) by (rewrite <- Ew; apply width_pos; assumption).
  assert (Hl : length (repeat 0 n) = n) by apply repeat_length.
  destruct (takes_part_dec k (vbox / velfac) dr2 smooth) as [T|T].
  - rewrite colden_unfold in E1, E2 by assumption. rewrite Ew in E1, E2.
    assert (C1 : centre k dr2 pos smooth = pos) by (destruct k; try reflexivity; congruence).
    assert (C2 : centre k dr2 (pos + IZR s * w) smooth = pos + IZR s * w) by (destruct k; try reflexivity; congruence).
    rewrite C1 in E1. rewrite C2 in E2. set (r := half_extent k dr2 smooth) in *.
    replace (pos + IZR s * w - r) with (pos - r + IZR s * w) in E2 by ring.
    replace (pos + IZR s * w + r) with (pos + r + IZR s * w) in E2 by ring.
    rewrite shift_floor, shift_ceil in E2 by lra.
    replace (Zceil ((pos + r) / w) + s - (Zfloor ((pos - r) / w) + s) + 1)%Z
      with (Zceil ((pos + r) / w) - Zfloor ((pos - r) / w) + 1)%Z in E2 by lia.
    eapply (deposit_shift n s); [exact Hn|exact Hl|apply nth_repeat0| |exact E1|exact E2].
    intros z. unfold col_value. rewrite plus_IZR.
    replace (w * (IZR z + IZR s) - (pos + IZR s * w)) with (w * IZR z - pos) by ring. reflexivity.
  - rewrite colden_skip in E1, E2 by assumption. injection E1 as <-. injection E2 as <-.
    split; [reflexivity|]. intros. rewrite !nth_repeat0. reflexivity.
Qed.

Lemma C09_shift_voronoi_aux : forall vbox velfac (n : nat) low high dens pos pos' (s : Z) a1 a2,
  0 < vbox -> 0 < velfac -> (0 < n)%nat ->
  let w := vbox / velfac / INR n in
  low <= high -> high <= 2 * (vbox / velfac) -> high + IZR s * w <= 2 * (vbox / velfac) ->
  add_colden_particle Voronoi vbox velfac (Z.of_nat n) low dens pos high (repeat 0 n) = Some a1 ->
  add_colden_particle Voronoi vbox velfac (Z.of_nat n) (low + IZR s * w) dens pos' (high + IZR s * w) (repeat 0 n)
    = Some a2 ->
  rotated s a1 a2.
Proof.
  intros vbox velfac n low high dens pos pos' s a1 a2 Hv Hf Hn w Ho Hh Hh' E1 E2.
  assert (Hn0 : INR n <> 0) by (apply not_0_INR; lia).
  assert (Ew : vbox / IZR (Z.of_nat n) / velfac = w)
    by (unfold w; rewrite <- INR_IZR_INZ; field; lra).
  assert (Hw : 0 < w) by (rewrite <- Ew; apply width_pos; assumption).
  assert (Hl : length (repeat 0 n) = n) by apply repeat_length.
  rewrite colden_unfold in E1, E2 by (simpl; lra). rewrite Ew in E1, E2. simpl centre in *. simpl half_extent in *.
  set (c := (low + high) / 2) in *.
  replace ((low + IZR s * w + (high + IZR s * w)) / 2) with (c + IZR s * w) in E2 by (unfold c; field).
  replace ((high + IZR s * w - (low + IZR s * w)) / 2) with ((high - low) / 2) in E2 by field.
  set (r := (high - low) / 2) in *.
  replace (c + IZR s * w - r) with (c - r + IZR s * w) in E2 by ring.
  replace (c + IZR s * w + r) with (c + r + IZR s * w) in E2 by ring.
  rewrite shift_floor, shift_ceil in E2 by lra.
  replace (Zceil ((c + r) / w) + s - (Zfloor ((c - r) / w) + s) + 1)%Z
    with (Zceil ((c + r) / w) - Zfloor ((c - r) / w) + 1)%Z in E2 by lia.
  eapply (deposit_shift n s); [exact Hn|exact Hl|apply nth_repeat0| |exact E1|exact E2].
  intros z. unfold col_value. simpl. unfold arepo_kern_frac. rewrite plus_IZR.
  replace (w * (IZR z + IZR s) - (c + IZR s * w)) with (w * IZR z - c) by ring. reflexivity.
Qed.

Lemma rotated_whole : forall n m a b, (0 < n)%nat -> length a = n -> rotated (m * Z.of_nat n) a b -> a = b.
Proof.
  intros n m a b Hn La (L & N). apply (nth_ext a b 0 0 L).
  intros i Hi. specialize (N (Z.of_nat i) ltac:(lia)). rewrite La in N.
  rewrite Z.mod_add in N by lia. rewrite Z.mod_small in N by lia. rewrite Nat2Z.id in N. congruence.
Qed.

Lemma C09_box_aux : forall k vbox velfac (n : nat) dr2 dens pos smooth (m : Z),
  k <> Voronoi -> 0 < vbox -> 0 < velfac -> (0 < n)%nat ->
  add_colden_particle k vbox velfac (Z.of_nat n) dr2 dens (pos + IZR m * (vbox / velfac)) smooth (repeat 0 n) =
  add_colden_particle k vbox velfac (Z.of_nat n) dr2 dens pos smooth (repeat 0 n).
Proof.
  intros k vbox velfac n dr2 dens pos smooth m Hk Hv Hf Hn.
  assert (Hl : length (repeat 0 n) = n) by apply repeat_length.
  destruct (colden_total_function k vbox velfac n dr2 dens pos smooth _ Hn Hl) as (a1 & E1 & L1).
  destruct (colden_total_function k vbox velfac n dr2 dens (pos + IZR m * (vbox / velfac)) smooth _ Hn Hl)
    as (a2 & E2 & L2).
  rewrite E1, E2. f_equal. symmetry. apply (rotated_whole n m); [assumption|assumption|].
  eapply C09_shift_aux; [exact Hk|exact Hv|exact Hf|exact Hn|exact E1|].
  rewrite <- E2. f_equal. rewrite mult_IZR, <- INR_IZR_INZ. field.
  split; [lra|apply not_0_INR; lia].
Qed.

(** ** C13 *)
Lemma sqrt_rev : forall r d h, 0 < h -> r = sqrt (h * h - d) -> d <= h * h -> sqrt (d + r * r) / h = 1.
Proof.
  intros r d h Hh -> Hd. rewrite sqrt_sqrt by lra. replace (d + (h * h - d)) with (h * h) by ring.
  rewrite sqrt_square by lra. field. lra.
Qed.

Lemma inner_sum : forall profile k b d h aa v,
  tau_kern_inner profile k b d h aa v =
  2 * m_vhigh k d h / 8 * rsum (map (fun i => let vv := INR i * (2 * m_vhigh k d h / 8) - m_vhigh k d h in
     profile ((vv - v) / b) aa * tau_weight k (sqrt (d + vv * vv) / h)) (seq 1 7)).
Proof.
  intros. unfold tau_kern_inner.
  rewrite (rsum_fold nat (fun i => profile ((INR i * (2 * m_vhigh k d h / 8) - m_vhigh k d h - v) / b) aa *
     tau_weight k (sqrt (d + (INR i * (2 * m_vhigh k d h / 8) - m_vhigh k d h) *
      (INR i * (2 * m_vhigh k d h / 8) - m_vhigh k d h)) / h))).
  rewrite Rplus_0_l. reflexivity.
Qed.

Lemma C13_sph_aux : forall profile k b d h aa v, k = Cubic \/ k = Quintic -> 0 < h -> d < h * h ->
  let r := sqrt (h * h - d) in
  let K := match k with Cubic => sph_cubic_kernel | _ => sph_quintic_kernel end in
  tau_kern_inner profile k b d h aa v =
  trapezium (fun u => profile ((u - v) / b) aa * K (sqrt (d + u * u) / h)) (- r) r 8.
Proof.
  intros profile k b d h aa v Hk Hh Hd r K. rewrite inner_sum.
  assert (Hr : m_vhigh k d h = r).
  { destruct Hk; subst k; simpl; destruct (Rlt_dec d (h * h)); try reflexivity; lra. }
  rewrite Hr.
  assert (Hq : sqrt (d + r * r) / h = 1) by (apply sqrt_rev; [assumption|reflexivity|lra]).
  assert (HK1 : K 1 = 0) by (destruct Hk; subst k; [apply cubic_zero|apply quintic_zero]; lra).
  unfold trapezium. replace (- r * - r) with (r * r) by ring. rewrite Hq, HK1.
  assert (E8 : INR 8 = 8) by (simpl; lra). rewrite E8. rewrite !Rmult_0_r.
  replace (r - - r) with (2 * r) by ring. f_equal.
  rewrite (rsum_map_ext _ _ (fun i => profile ((- r + INR i * (2 * r / 8) - v) / b) aa *
    K (sqrt (d + (- r + INR i * (2 * r / 8)) * (- r + INR i * (2 * r / 8))) / h))).
  - change (8 - 1)%nat with 7%nat. field.
  - intros i _. cbv zeta. replace (INR i * (2 * r / 8) - r) with (- r + INR i * (2 * r / 8)) by ring.
    destruct Hk; subst k; reflexivity.
Qed.

Lemma C13_defect_aux : forall (c b d h aa v : R), d < h * h ->
  tau_kern_inner (fun _ _ => c) TopHat b d h aa v =
    7 / 8 * (c * (3 / (4 * PI) * (2 * sqrt (h * h - d)))).
Proof.
  intros c b d h aa v Hd. rewrite inner_sum. simpl m_vhigh. destruct (Rlt_dec d (h * h)); [|lra].
  cbn [tau_weight]. unfold rsum. simpl. field. pose proof PI_RGT_0. lra.
Qed.

Lemma C13_defect_voronoi_aux : forall (c b low high aa v : R), 0 < low -> low <= high ->
  tau_kern_inner (fun _ _ => c) Voronoi b low high aa v = 7 / 8 * (c * (high - low)).
Proof.
  intros c b low high aa v Hl Ho. rewrite inner_sum. simpl m_vhigh.
  destruct (Rlt_dec 0 low); [|lra]. destruct (Rlt_dec 0 high); [|lra].
  cbn [tau_weight]. unfold rsum. simpl. field.
Qed.
