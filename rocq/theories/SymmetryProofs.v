(** Proofs about the symmetries of the periodic box: single particles. *)
From Coq Require Import ZArith List Reals Lra Lia Permutation Psatz.
From Verif Require Import Containers IndexModel IndexSpec IndexProofs AbsorptionModel AbsorptionSpec AbsorptionProofs PipelineModel
  PipelineSpec PipelineProofs SymmetrySpec.
From Flocq Require Import Core.Raux.
Import ListNotations.
Local Open Scope R_scope.

(** ** Periodic distances *)
Lemma periodic_moved : forall L a b a' b' d s t, s = 1%Z \/ s = (-1)%Z ->
  (exists k, a' = s * a + t + k * L)%Z -> (exists k, b' = s * b + t + k * L)%Z ->
  periodic_distance L a b d -> periodic_distance L a' b' d.
Proof.
  intros L a b a' b' d s t Hs (ka & ->) (kb & ->) ((k0 & E) & M). split.
  - exists (s * k0 - ka + kb)%Z. rewrite E. destruct Hs; subst s; [f_equal; ring|].
    rewrite <- Z.abs_opp. f_equal. ring.
  - intros k. specialize (M (s * (k + ka - kb))%Z). destruct Hs; subst s.
    + replace (1 * a + t + ka * L - (1 * b + t + kb * L) + k * L)%Z with (a - b + 1 * (k + ka - kb) * L)%Z by ring. exact M.
    + rewrite <- Z.abs_opp. replace (- (-1 * a + t + ka * L - (-1 * b + t + kb * L) + k * L))%Z with (a - b + -1 * (k + ka - kb) * L)%Z by ring. exact M.
Qed.

Lemma two_axes : forall L g l d, transverse_distance2 L (g_part g) l d <->
  exists u v a b, axis_number a /\ axis_number b /\ axis_number (l_axis l) /\ a <> b /\ a <> l_axis l /\ b <> l_axis l /\
    d = (u * u + v * v)%Z /\ periodic_distance L (place a g) (line_place a l) u /\ periodic_distance L (place b g) (line_place b l) v.
Proof.
  intros L g l d. split.
  - intros (u & v & E & [(A & P & Q)|[(A & P & Q)|(A & P & Q)]]); rewrite A.
    + exists u, v, 2%Z, 3%Z. unfold axis_number, place, line_place. simpl. repeat split; try assumption; try apply P; try apply Q; lia.
    + exists u, v, 1%Z, 3%Z. unfold axis_number, place, line_place. simpl. repeat split; try assumption; try apply P; try apply Q; lia.
    + exists u, v, 1%Z, 2%Z. unfold axis_number, place, line_place. simpl. repeat split; try assumption; try apply P; try apply Q; lia.
  - intros (u & v & a & b & Ha & Hb & Hl & N1 & N2 & N3 & E & P & Q).
    unfold place, line_place in *.
    destruct Ha as [-> | [-> | ->]], Hb as [-> | [-> | ->]], Hl as [Hl|[Hl|Hl]]; rewrite Hl in *; try congruence; cbn [pick Z.eqb Pos.eqb] in P, Q.
    + exists u, v. split; [exact E|]. right; right. auto.
    + exists u, v. split; [exact E|]. right; left. auto.
    + exists v, u. split; [rewrite E; ring|]. right; right. auto.
    + exists u, v. split; [exact E|]. left. auto.
    + exists v, u. split; [rewrite E; ring|]. right; left. auto.
    + exists v, u. split; [rewrite E; ring|]. left. auto.
Qed.

Lemma distance_moved : forall M L g l g' l' d, isometry M -> axis_number (l_axis l) -> moved M L g g' -> moved_line M L l l' ->
  transverse_distance2 L (g_part g) l d -> transverse_distance2 L (g_part g') l' d.
Proof.
  intros M L g l g' l' d (I1 & I2) Hl (_ & _ & _ & Mg) (Ml & Mc) D. apply two_axes in D. apply two_axes.
  destruct D as (u & v & a & b & Ha & Hb & _ & N1 & N2 & N3 & E & P & Q).
  exists u, v, (axes M a), (axes M b). rewrite Ml.
  split; [apply I1; assumption|]. split; [apply I1; assumption|]. split; [apply I1; assumption|].
  split; [intro X; apply N1, I2; assumption|]. split; [intro X; apply N2, I2; assumption|].
  split; [intro X; apply N3, I2; assumption|]. split; [exact E|].
  split.
  - apply (periodic_moved L (place a g) (line_place a l) _ _ u (sign M a) (step M a)); [apply I1; assumption| |apply Mc; assumption|exact P].
    apply (proj1 (Mg a Ha)).
  - apply (periodic_moved L (place b g) (line_place b l) _ _ v (sign M b) (step M b)); [apply I1; assumption| |apply Mc; assumption|exact Q].
    apply (proj1 (Mg b Hb)).
Qed.

(** ** Events under a rotation of the pixels *)
Definition rot (m n : Z) (evs : list event) : list event := map (fun e => ((fst e + m) mod n, snd e)%Z) evs.

Lemma at_cell_rot : forall m n evs c, (0 < n)%Z -> (0 <= c < n)%Z -> within 0 n evs ->
  at_cell ((c + m) mod n) (rot m n evs) = at_cell c evs.
Proof.
  intros m n evs c Hn Hc. unfold at_cell, rot. induction evs as [|[x v] evs IH]; intros W; [reflexivity|].
  pose proof (W _ (or_introl eq_refl)) as Hx. cbn [fst] in Hx.
  cbn [map filter fst snd].
  assert (E : ((x + m) mod n =? (c + m) mod n)%Z = (x =? c)%Z).
  { destruct (Z.eqb_spec x c) as [-> | N]; [apply Z.eqb_refl|].
    apply Z.eqb_neq. intro H. apply N.
    assert (K : ((x - c) mod n = 0)%Z).
    { replace (x - c)%Z with ((x + m) - (c + m))%Z by ring. rewrite Zminus_mod, H, Z.sub_diag. apply Zmod_0_l. }
    apply Z.mod_divide in K; [|lia]. destruct K as (q & K). assert (q = 0)%Z by nia. lia. }
  rewrite E. destruct (x =? c)%Z; cbn [map snd]; [f_equal|]; apply IH; intros e He; apply W; right; assumption.
Qed.

Lemma wrap_add : forall z m n, (0 < n)%Z -> wrap_index (z + m) n = ((wrap_index z n + m) mod n)%Z.
Proof. intros z m n Hn. rewrite !wrap_index_mod by assumption. rewrite Zplus_mod_idemp_l. reflexivity. Qed.

Lemma zrange_up_shift : forall a m h, zrange_up (a + m) h = map (fun z => (z + m)%Z) (zrange_up a h).
Proof. intros. unfold zrange_up. rewrite map_map. apply map_ext. intros i. ring. Qed.
Lemma zrange_down_shift : forall a m h, zrange_down (a + m) h = map (fun z => (z + m)%Z) (zrange_down a h).
Proof. intros. unfold zrange_down. rewrite map_map. apply map_ext. intros i. ring. Qed.

Lemma colden_events_shift : forall k vb vf n dr2 dens pos smooth m, k <> Voronoi -> 0 < vb -> 0 < vf -> (0 < n)%Z ->
  colden_events k vb vf n dr2 dens (pos + IZR m * (vb / IZR n / vf)) smooth = rot m n (colden_events k vb vf n dr2 dens pos smooth).
Proof.
  intros k vb vf n dr2 dens pos smooth m Hk Hv Hf Hn.
  assert (Hn' : 0 < IZR n) by (apply IZR_lt; exact Hn).
  assert (Hw : 0 < vb / IZR n / vf) by (unfold Rdiv; apply Rmult_lt_0_compat; [apply Rmult_lt_0_compat|]; auto using Rinv_0_lt_compat).
  unfold colden_events. set (w := vb / IZR n / vf) in *.
  destruct (skips k vb vf dr2 smooth); [reflexivity|].
  assert (C : forall p, (match k with Voronoi => (dr2 + smooth) / 2 | _ => p end) = p) by (intro; destruct k; congruence || reflexivity).
  rewrite !C. set (r := match k with Voronoi => (smooth - dr2) / 2 | _ => sqrt (smooth * smooth - dr2) end).
  replace (pos + IZR m * w - r) with (pos - r + IZR m * w) by ring.
  replace (pos + IZR m * w + r) with (pos + r + IZR m * w) by ring.
  rewrite shift_floor, shift_ceil by lra.
  replace (Zceil ((pos + r) / w) + m - (Zfloor ((pos - r) / w) + m) + 1)%Z
    with (Zceil ((pos + r) / w) - Zfloor ((pos - r) / w) + 1)%Z by ring.
  rewrite zrange_up_shift. unfold rot. rewrite !map_map. apply map_ext. intros z. cbn [fst snd].
  rewrite wrap_add by assumption. rewrite plus_IZR.
  replace (w * (IZR z + IZR m) - (pos + IZR m * w)) with (w * IZR z - pos) by ring. reflexivity.
Qed.

Lemma tau_loop_events_shift : forall n tt v v' m zs, (0 < n)%Z -> (forall z, v' (z + m)%Z = v z) ->
  tau_loop_events n tt v' (map (fun z => (z + m)%Z) zs) = rot m n (tau_loop_events n tt v zs).
Proof.
  intros n tt v v' m zs Hn H. induction zs as [|z zs IH]; [reflexivity|].
  cbn [map tau_loop_events]. rewrite H, wrap_add by assumption. unfold rot. cbn [map fst snd]. f_equal.
  destruct (Rlt_dec (v z) tt); [reflexivity|exact IH].
Qed.

Lemma tau_events_shift : forall profile L k n dr2 dens pos vel temp smooth pos' vel' m, k <> Voronoi -> 0 < vbox L -> (0 < n)%Z ->
  velfac L * pos' + vel' = velfac L * pos + vel + IZR m * (vbox L / IZR n) ->
  tau_events profile L k n dr2 dens pos' vel' temp smooth = rot m n (tau_events profile L k n dr2 dens pos vel temp smooth).
Proof.
  intros profile L k n dr2 dens pos vel temp smooth pos' vel' m Hk Hv Hn E.
  assert (Hn' : 0 < IZR n) by (apply IZR_lt; exact Hn).
  assert (Hw : 0 < vbox L / IZR n) by (unfold Rdiv; apply Rmult_lt_0_compat; auto using Rinv_0_lt_compat).
  unfold tau_events. set (w := vbox L / IZR n) in *.
  destruct (skips k (vbox L) (velfac L) dr2 smooth); [reflexivity|].
  assert (C : forall p, (match k with Voronoi => (dr2 + smooth) / 2 | _ => p end) = p) by (intro; destruct k; congruence || reflexivity).
  rewrite !C, E. set (V := velfac L * pos + vel). cbv zeta.
  rewrite shift_floor by lra. unfold rot. rewrite map_app.
  replace (Zfloor (V / w) + m - 1)%Z with (Zfloor (V / w) - 1 + m)%Z by ring.
  rewrite zrange_up_shift, zrange_down_shift.
  f_equal; apply tau_loop_events_shift; try assumption; intros z; rewrite plus_IZR;
    replace ((IZR z + IZR m) * w - (V + IZR m * w)) with (IZR z * w - V) by ring; reflexivity.
Qed.

(** ** The mirror image of a column *)
Lemma rsum_rev : forall l, rsum (rev l) = rsum l.
Proof. intros. apply rsum_perm. apply Permutation_sym, Permutation_rev. Qed.

Lemma sph_frac_mirror : forall K a b smooth dr2 r, 0 <= r -> sph_kern_frac K (- b) (- a) smooth dr2 r = sph_kern_frac K a b smooth dr2 r.
Proof.
  intros K a b smooth dr2 r Hr. unfold sph_kern_frac.
  rewrite <- Ropp_Rmin. replace (Rmin (- a) r) with (- Rmax a (- r)).
  2:{ unfold Rmin, Rmax. destruct (Rle_dec a (- r)), (Rle_dec (- a) r); lra. }
  set (lo := Rmax a (- r)). set (hi := Rmin b r).
  destruct (Rlt_dec (- lo) (- hi)) as [h1|h1], (Rlt_dec hi lo) as [h2|h2]; try reflexivity; try lra.
  cbv zeta. replace (- lo - - hi) with (hi - lo) by ring.
  replace (- hi * - hi) with (hi * hi) by ring. replace (- lo * - lo) with (lo * lo) by ring.
  set (dz := (hi - lo) / 8).
  cbn [seq fold_left]. f_equal.
  assert (Q : forall i j, INR i + INR j = 8 -> (INR i * dz + - hi) * (INR i * dz + - hi) = (INR j * dz + lo) * (INR j * dz + lo)).
  { intros i j E. replace (INR i) with (8 - INR j) by lra. unfold dz. field. }
  rewrite (Q 1%nat 7%nat), (Q 2%nat 6%nat), (Q 3%nat 5%nat), (Q 4%nat 4%nat), (Q 5%nat 3%nat), (Q 6%nat 2%nat), (Q 7%nat 1%nat) by (simpl; ring).
  ring.
Qed.

Lemma flat_frac_mirror : forall a b r, Rmin (- a) r - Rmax (- b) (- r) = Rmin b r - Rmax a (- r).
Proof.
  intros. unfold Rmin, Rmax. destruct (Rle_dec (- a) r), (Rle_dec (- b) (- r)), (Rle_dec b r), (Rle_dec a (- r)); lra.
Qed.

Lemma frac_mirror : forall k a b smooth dr2 r, 0 <= r -> kern_frac k (- b) (- a) smooth dr2 r = kern_frac k a b smooth dr2 r.
Proof.
  intros k a b smooth dr2 r Hr. destruct k; cbn [kern_frac].
  - unfold tophat_kern_frac. rewrite flat_frac_mirror. reflexivity.
  - apply sph_frac_mirror, Hr.
  - unfold arepo_kern_frac. rewrite flat_frac_mirror. reflexivity.
  - apply sph_frac_mirror, Hr.
Qed.

Lemma frac_beyond : forall k a b smooth dr2 r, 0 <= r -> r <= a -> a <= b -> kern_frac k a b smooth dr2 r = 0.
Proof.
  intros k a b smooth dr2 r Hr Ha Hb.
  assert (E1 : Rmax a (- r) = a) by (apply Rmax_left; lra). assert (E2 : Rmin b r = r) by (apply Rmin_right; lra).
  assert (S : forall K, sph_kern_frac K a b smooth dr2 r = 0).
  { intros K. unfold sph_kern_frac. rewrite E1, E2. destruct (Rlt_dec r a); [reflexivity|].
    replace (r - a) with 0 by lra. unfold Rdiv. rewrite Rmult_0_l. cbv zeta. ring. }
  destruct k; cbn [kern_frac]; try apply S.
  - unfold tophat_kern_frac. rewrite E1, E2, Rmax_left by lra. ring.
  - unfold arepo_kern_frac. rewrite E1, E2, Rmax_left by lra. reflexivity.
Qed.

(** The sum deposited in one pixel by a run of pixels. *)
Lemma at_cell_map : forall (w : Z -> Z) (v : Z -> R) c zs,
  rsum (at_cell c (map (fun z => (w z, v z)) zs)) = rsum (map (fun z => if (w z =? c)%Z then v z else 0) zs).
Proof.
  intros w v c zs. unfold at_cell. induction zs as [|z zs IH]; [reflexivity|]. cbn [map filter fst].
  destruct (w z =? c)%Z; cbn [map snd]; unfold rsum in *; cbn [fold_right]; rewrite IH; ring.
Qed.

Lemma zrange_snoc : forall a h, zrange_up a (S h) = zrange_up a h ++ [(a + Z.of_nat h)%Z].
Proof. intros. unfold zrange_up. rewrite seq_S, map_app. reflexivity. Qed.

Lemma zrange_mirror : forall a h, Permutation (zrange_up (- (a + Z.of_nat h)) h) (map (fun z => (-1 - z)%Z) (zrange_up a h)).
Proof.
  intros a h. induction h as [|h IH]; [constructor|].
  rewrite zrange_snoc with (a := a), map_app. cbn [map].
  unfold zrange_up at 1. cbn [seq map]. rewrite <- seq_shift, map_map.
  eapply Permutation_trans; [|apply Permutation_cons_append].
  replace (-1 - (a + Z.of_nat h))%Z with (- (a + Z.of_nat (S h)) + Z.of_nat 0)%Z by lia.
  apply perm_skip. eapply Permutation_trans; [|exact IH].
  unfold zrange_up. apply Permutation_refl'. apply map_ext. intros i. lia.
Qed.

Lemma colden_mirror : forall k vb vf n dr2 dens pos smooth m c, k <> Voronoi -> 0 < vb -> 0 < vf -> (0 < n)%Z -> (0 <= c < n)%Z ->
  rsum (at_cell ((m - 1 - c) mod n) (colden_events k vb vf n dr2 dens (IZR m * (vb / IZR n / vf) - pos) smooth)) =
  rsum (at_cell c (colden_events k vb vf n dr2 dens pos smooth)).
Proof.
  intros k vb vf n dr2 dens pos smooth m c Hk Hv Hf Hn Hc.
  assert (Hn' : 0 < IZR n) by (apply IZR_lt; exact Hn).
  replace (IZR m * (vb / IZR n / vf) - pos) with (- pos + IZR m * (vb / IZR n / vf)) by ring.
  rewrite colden_events_shift by assumption.
  replace ((m - 1 - c) mod n)%Z with (((n - 1 - c) + m) mod n)%Z.
  2:{ replace (n - 1 - c + m)%Z with (m - 1 - c + 1 * n)%Z by ring. apply Z_mod_plus_full. }
  rewrite at_cell_rot; [|assumption|lia|apply colden_events_within; assumption].
  assert (Hw : 0 < vb / IZR n / vf) by (unfold Rdiv; apply Rmult_lt_0_compat; [apply Rmult_lt_0_compat|]; auto using Rinv_0_lt_compat).
  unfold colden_events. set (w := vb / IZR n / vf) in *.
  destruct (skips k vb vf dr2 smooth) eqn:Sk; [reflexivity|].
  assert (C : forall p, (match k with Voronoi => (dr2 + smooth) / 2 | _ => p end) = p) by (intro; destruct k; congruence || reflexivity).
  rewrite !C. set (r := match k with Voronoi => (smooth - dr2) / 2 | _ => sqrt (smooth * smooth - dr2) end).
  assert (Hr : 0 <= r) by (unfold r; destruct k; [apply sqrt_pos|apply sqrt_pos|congruence|apply sqrt_pos]).
  clearbody r. clear Sk C. cbv zeta.
  rewrite !at_cell_map.
  replace ((- pos - r) / w) with (- ((pos + r) / w)) by (unfold Rdiv; ring).
  replace ((- pos + r) / w) with (- ((pos - r) / w)) by (unfold Rdiv; ring).
  replace (Zceil (- ((pos - r) / w))) with (- Zfloor ((pos - r) / w))%Z by (unfold Zceil; rewrite Ropp_involutive; reflexivity).
  replace (Zfloor (- ((pos + r) / w))) with (- Zceil ((pos + r) / w))%Z by (unfold Zceil; lia).
  set (lo := Zfloor ((pos - r) / w)). set (hi := Zceil ((pos + r) / w)).
  assert (Bhi : pos + r <= w * IZR hi).
  { pose proof (Zceil_ub ((pos + r) / w)) as B. fold hi in B. apply Rmult_le_compat_l with (r := w) in B; [|lra].
    replace (w * ((pos + r) / w)) with (pos + r) in B by (field; lra). exact B. }
  assert (Blo : w * IZR lo <= pos - r).
  { pose proof (Zfloor_lb ((pos - r) / w)) as B. fold lo in B. apply Rmult_le_compat_l with (r := w) in B; [|lra].
    replace (w * ((pos - r) / w)) with (pos - r) in B by (field; lra). exact B. }
  assert (Hle : (lo <= hi)%Z).
  { apply le_IZR. apply Rmult_le_reg_l with w; lra. }
  clearbody lo hi.
  replace (- lo - - hi + 1)%Z with (hi - lo + 1)%Z by ring.
  replace (Z.to_nat (hi - lo + 1)) with (S (Z.to_nat (hi - lo))) by lia.
  set (h := Z.to_nat (hi - lo)). assert (Eh : Z.of_nat h = (hi - lo)%Z) by (unfold h; lia). clearbody h.
  rewrite !zrange_snoc, !map_app, !rsum_app. cbn [map].
  replace (lo + Z.of_nat h)%Z with hi by lia. replace (- hi + Z.of_nat h)%Z with (- lo)%Z by lia.
  assert (Z1 : dens * kern_frac k (w * IZR hi - pos) (w * IZR hi - pos + w) smooth dr2 r = 0)
    by (rewrite frac_beyond; [ring|assumption|lra|lra]).
  assert (Z2 : dens * kern_frac k (w * IZR (- lo) - - pos) (w * IZR (- lo) - - pos + w) smooth dr2 r = 0)
    by (rewrite frac_beyond; [ring|assumption|rewrite opp_IZR; lra|lra]).
  rewrite Z1, Z2.
  assert (I : forall b : bool, rsum [if b then 0 else 0] = 0) by (intros []; unfold rsum; simpl; ring).
  rewrite !I. f_equal.
  rewrite (rsum_perm _ _ (Permutation_map _ (Permutation_trans
     (Permutation_refl' (f_equal (fun x => zrange_up x h) (eq_sym (f_equal Z.opp (eq_trans (f_equal (Z.add lo) Eh) (Zplus_minus lo hi)))))) (zrange_mirror lo h)))).
  rewrite map_map. f_equal. apply map_ext. intros z.
  rewrite !wrap_index_mod by assumption.
  assert (E : (((-1 - z) mod n) =? n - 1 - c)%Z = ((z mod n) =? c)%Z).
  { replace ((-1 - z) mod n)%Z with (n - 1 - z mod n)%Z.
    - destruct (Z.eqb_spec (z mod n) c) as [-> | N]; [apply Z.eqb_refl|]. apply Z.eqb_neq. lia.
    - pose proof (Z.mod_pos_bound z n Hn) as B. apply (Z.mod_unique_pos (-1 - z) n (-1 - z / n)); [lia|].
      rewrite (Z.mod_eq z n) by lia. ring. }
  rewrite E. destruct (z mod n =? c)%Z; [|reflexivity]. f_equal.
  rewrite <- (frac_mirror k (w * IZR z - pos)) by assumption.
  rewrite minus_IZR. f_equal; ring.
Qed.
