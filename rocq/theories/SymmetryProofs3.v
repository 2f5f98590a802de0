(** Proofs about the unit of length, the amount of gas and the mirror image of the optical depth. *)
From Coq Require Import ZArith List Reals Lra Lia Permutation Psatz.
From Verif Require Import Containers IndexModel IndexSpec IndexProofs AbsorptionModel AbsorptionSpec AbsorptionProofs KernelProofs TauProofs
  PipelineModel PipelineSpec PipelineProofs SymmetrySpec SymmetryProofs SymmetryProofs2.
From Flocq Require Import Core.Raux.
Import ListNotations.
Local Open Scope R_scope.

(** ** Finer coordinates *)
Lemma periodic_finer : forall k L a b d, (0 < k)%Z -> periodic_distance L a b d -> periodic_distance (k * L) (k * a) (k * b) (k * d).
Proof.
  intros k L a b d Hk ((k0 & E) & M). split.
  - exists k0. rewrite E. replace (k * a - k * b + k0 * (k * L))%Z with (k * (a - b + k0 * L))%Z by ring. rewrite Z.abs_mul, (Z.abs_eq k) by lia. reflexivity.
  - intros j. replace (k * a - k * b + j * (k * L))%Z with (k * (a - b + j * L))%Z by ring. rewrite Z.abs_mul, (Z.abs_eq k) by lia.
    apply Z.mul_le_mono_nonneg_l; [lia|apply M].
Qed.

Lemma d2_finer : forall k su l g, (0 < k)%Z -> good_gas su g -> good_line (su_box su) l -> good_gas (finer_setup k su) (finer k g) ->
  good_line (k * su_box su) (finer_line k l) ->
  d2_of (finer_setup k su) (finer_line k l) (finer k g) = (k * k * d2_of su l g)%Z.
Proof.
  intros k su l g Hk (G1 & G2 & G3) Hl (G1' & G2' & G3') Hl'.
  apply (transverse_unique (k * su_box su) (g_part (finer k g)) (finer_line k l)).
  - apply (transverse_calc (k * su_box su)); [cbn [finer_setup su_box] in *; lia|assumption|assumption].
  - pose proof (transverse_calc (su_box su) (g_part g) l ltac:(lia) G3 Hl) as (u & v & E & D).
    exists (k * u)%Z, (k * v)%Z. split; [unfold d2_of; rewrite E; ring|].
    cbn [finer finer_line g_part p_x p_y p_z l_axis l_x l_y l_z].
    destruct D as [(A & P & Q)|[(A & P & Q)|(A & P & Q)]]; [left|right; left|right; right];
      (split; [exact A|]; split; apply periodic_finer; assumption).
Qed.

Lemma finer_good : forall k su g, (0 < k)%Z -> good_gas su g -> good_gas (finer_setup k su) (finer k g).
Proof.
  intros k su g Hk (G1 & G2 & G3 & G4 & G5). unfold good_gas, good_particle, inside in *. cbn [finer finer_setup su_box g_part p_x p_y p_z p_h]. nia.
Qed.
Lemma finer_good_line : forall k L l, (0 < k)%Z -> good_line L l -> good_line (k * L) (finer_line k l).
Proof. intros k L l Hk (A & B & C & D). unfold good_line, inside in *. cbn [finer_line l_axis l_x l_y l_z]. nia. Qed.

Lemma px_finer : forall qu k su l j g, (0 < k)%Z -> good_gas su g -> good_line (su_box su) l ->
  px qu (finer_setup k su) (finer_line k l) j (finer k g) = px qu su l j g.
Proof.
  intros qu k su l j g Hk G Hl. assert (K : 0 < IZR k) by (apply IZR_lt; exact Hk).
  unfold px, true_events. rewrite d2_finer by (try apply finer_good; try apply finer_good_line; assumption).
  assert (E1 : su_unit (finer_setup k su) * su_unit (finer_setup k su) * IZR (k * k * d2_of su l g) = su_unit su * su_unit su * IZR (d2_of su l g)).
  { cbn [finer_setup su_unit]. rewrite !mult_IZR. field. lra. }
  assert (E2 : forall c, su_unit (finer_setup k su) * IZR (k * c) = su_unit su * IZR c).
  { intros c. cbn [finer_setup su_unit]. rewrite mult_IZR. field. lra. }
  rewrite E1. cbn [finer g_part p_h]. rewrite E2. f_equal. f_equal.
  unfold particle_events. rewrite !along_place, !vel_speed.
  assert (E3 : place (l_axis (finer_line k l)) (finer k g) = (k * place (l_axis l) g)%Z).
  { unfold place, pick. cbn. destruct (l_axis l =? 1)%Z; [reflexivity|]. destruct (l_axis l =? 2)%Z; reflexivity. }
  rewrite E3, E2. cbn [finer finer_setup su_kern su_line su_nbins su_profile g_dens g_temp]. reflexivity.
Qed.

Lemma C106_finer_aux : forall qu k pos pos' su ls ranks ranks', (0 < k)%Z ->
  (0 < su_nbins su)%nat -> su_kern su <> Voronoi -> Forall (good_line (su_box su)) ls ->
  ranks_ok pos su ls ranks -> ranks_ok pos' (finer_setup k su) (map (finer_line k) ls) ranks' ->
  Permutation (all_gas ranks') (map (finer k) (all_gas ranks)) ->
  compute_spectra qu pos' (finer_setup k su) (map (finer_line k) ls) ranks' = compute_spectra qu pos su ls ranks.
Proof.
  intros qu k pos pos' su ls ranks ranks' Hk Hn Hv Hls Hr Hr' P.
  assert (F2 : Forall2 (fun g g' => g' = finer k g) (all_gas ranks) (map (finer k) (all_gas ranks)))
    by (clear; induction (all_gas ranks); cbn [map]; constructor; auto).
  assert (FL : Forall2 (fun l l' => l' = finer_line k l) ls (map (finer_line k) ls)) by (clear; induction ls; cbn [map]; constructor; auto).
  assert (Hls' : Forall (good_line (su_box (finer_setup k su))) (map (finer_line k) ls)).
  { apply Forall_map. eapply Forall_impl; [|exact Hls]. intros l Hl. apply finer_good_line; assumption. }
  destruct (spectra_related qu pos pos' su (finer_setup k su) ls (map (finer_line k) ls) ranks ranks' _ _ _ (fun _ j => j) Hn eq_refl Hv Hv Hls Hls' Hr Hr' P F2 FL)
    as (out & out' & E & E' & L1 & L2 & V).
  rewrite E, E'. f_equal. apply (slices_ext out' out (length ls) (su_nbins su)); [congruence|exact L1|].
  intros i j Hi Hj. destruct (nth_error ls i) as [l|] eqn:El; [|apply nth_error_None in El; lia].
  apply (V i l El); [auto| |exact Hj].
  intros l' g g' j' -> -> Gl _ Gg _ _. apply px_finer; assumption.
Qed.

(** ** The value of a pixel *)
Lemma outer_between : forall profile k b d h aa vlow w lo, 0 < b -> 0 < w ->
  (forall v, lo <= tau_kern_inner profile k b d h aa v) -> lo <= tau_kern_outer profile k b d h aa vlow (vlow + w).
Proof.
  intros profile k b d h aa vlow w lo Hb Hw H.
  destruct (outer_mean profile k b d h aa Hb w Hw) as (offs & Ho & S1 & E).
  change (tau_kern_outer profile k b d h aa vlow (vlow + w)) with (outer_w profile k b d h aa vlow w). rewrite E. clear E.
  replace lo with (rsum (map snd offs) * lo) by (rewrite S1; ring). clear S1.
  induction offs as [|(o, c) offs IH]; [unfold rsum; simpl; lra|].
  unfold rsum in *. cbn [map fold_right fst snd].
  assert (0 <= c) by (apply (Ho o c); left; reflexivity).
  assert (fold_right Rplus 0 (map snd offs) * lo <= fold_right Rplus 0
     (map (fun oc => snd oc * tau_kern_inner profile k b d h aa (vlow + fst oc)) offs)).
  { apply IH. intros; apply (Ho o0 c0); right; assumption. }
  assert (c * lo <= c * tau_kern_inner profile k b d h aa (vlow + o)) by (apply Rmult_le_compat_l; auto).
  lra.
Qed.

Lemma inner_nonneg' : forall profile k b d h aa v, (forall u a, 0 <= profile u a) -> k <> Voronoi -> 0 < h ->
  0 <= tau_kern_inner profile k b d h aa v.
Proof.
  intros profile k b d h aa v Hp Hk Hh. rewrite inner_sum.
  assert (0 <= m_vhigh k d h) by (apply vhigh_nonneg; congruence).
  apply Rmult_le_pos; [lra|]. apply rsum_nonneg. intros x Hx. apply in_map_iff in Hx.
  destruct Hx as (i & <- & _). cbv zeta. apply Rmult_le_pos; [apply Hp|].
  apply weight_nonneg. unfold Rdiv. apply Rmult_le_pos; [apply sqrt_pos|]. left. apply Rinv_0_lt_compat. assumption.
Qed.

(** The value per unit of gas. *)
Definition unit_value (su : setup) (l : sightline) (g : gas) (z : Z) : R :=
  let L := su_line su in
  let btherm := bfac L * sqrt (g_temp g) in
  let dr2 := su_unit su * su_unit su * IZR (d2_of su l g) in
  let vel := velfac L * (su_unit su * IZR (along l g)) + vel_along l g in
  let bin := vbox L / IZR (Z.of_nat (su_nbins su)) in
  let vlow := IZR z * bin - vel in
  sigma_a L / sqrt PI * (light_kms / btherm) *
  tau_kern_outer (su_profile su) (su_kern su) btherm (velfac L * dr2 * velfac L) (velfac L * (su_unit su * IZR (p_h (g_part g)))) (voigt_fac L / btherm)
    vlow (vlow + bin) / velfac L.

Definition tau_window (su : setup) (l : sightline) (g : gas) : list Z * list Z :=
  let L := su_line su in
  let vel := velfac L * (su_unit su * IZR (along l g)) + vel_along l g in
  let n := Z.of_nat (su_nbins su) in
  let zmax := Zfloor (vel / (vbox L / IZR n)) in
  (zrange_up zmax (Z.to_nat (Z.quot n 2)), zrange_down (zmax - 1) (Z.to_nat (Z.quot n 2))).

Lemma true_depth : forall su l g, su_kern su <> Voronoi -> true_events Depth su l g =
  if skips (su_kern su) (vbox (su_line su)) (velfac (su_line su)) (su_unit su * su_unit su * IZR (d2_of su l g)) (su_unit su * IZR (p_h (g_part g)))
  then []
  else tau_loop_events (Z.of_nat (su_nbins su)) (tautail (su_line su)) (fun z => g_dens g * unit_value su l g z) (fst (tau_window su l g)) ++
       tau_loop_events (Z.of_nat (su_nbins su)) (tautail (su_line su)) (fun z => g_dens g * unit_value su l g z) (snd (tau_window su l g)).
Proof.
  intros su l g Hk. unfold true_events, particle_events, tau_events, tau_window. cbv zeta.
  destruct (skips _ _ _ _ _); [reflexivity|]. cbn [fst snd].
  assert (C : forall (A : Type) (p q : A), (match su_kern su with Voronoi => q | _ => p end) = p) by (intros; destruct (su_kern su); congruence || reflexivity).
  rewrite !C.
  assert (X : forall v v' zs, (forall z, v z = v' z) ->
     tau_loop_events (Z.of_nat (su_nbins su)) (tautail (su_line su)) v zs = tau_loop_events (Z.of_nat (su_nbins su)) (tautail (su_line su)) v' zs).
  { intros v v' zs H. induction zs as [|z zs IH]; [reflexivity|]. cbn [tau_loop_events]. rewrite H, IH. reflexivity. }
  f_equal; apply X; intros z; unfold unit_value; cbv zeta; unfold Rdiv; ring.
Qed.

Lemma unit_value_nonneg : forall su l g z, no_gain su -> su_kern su <> Voronoi -> (0 < su_nbins su)%nat -> 0 < su_unit su ->
  0 < g_temp g -> (0 < p_h (g_part g))%Z -> 0 <= unit_value su l g z.
Proof.
  intros su l g z (Hp & Hs & Hb & Hf & Hv) Hk Hn Hu Ht Hh. unfold unit_value. cbv zeta.
  assert (B : 0 < bfac (su_line su) * sqrt (g_temp g)) by (apply Rmult_lt_0_compat; [assumption|apply sqrt_lt_R0; assumption]).
  assert (N : 0 < IZR (Z.of_nat (su_nbins su))) by (apply IZR_lt; lia).
  assert (W : 0 < vbox (su_line su) / IZR (Z.of_nat (su_nbins su))) by (apply Rdiv_lt_0_compat; assumption).
  assert (H : 0 < velfac (su_line su) * (su_unit su * IZR (p_h (g_part g)))).
  { apply Rmult_lt_0_compat; [assumption|]. apply Rmult_lt_0_compat; [assumption|apply IZR_lt; assumption]. }
  unfold Rdiv at 5. apply Rmult_le_pos; [|left; apply Rinv_0_lt_compat; assumption].
  apply Rmult_le_pos.
  - assert (0 < sqrt PI) by (apply sqrt_lt_R0, PI_RGT_0).
    apply Rmult_le_pos; [apply Rmult_le_pos; [assumption|left; apply Rinv_0_lt_compat; assumption]|]. left. apply Rdiv_lt_0_compat; [unfold light_kms; lra|assumption].
  - apply outer_between; try assumption. intros v. apply inner_nonneg'; assumption.
Qed.

(** ** The amount of gas *)
Lemma d2_amount : forall su l d g, d2_of su l (with_amount d g) = d2_of su l g.
Proof. reflexivity. Qed.
Lemma good_amount : forall su d g, good_gas su (with_amount d g) <-> good_gas su g.
Proof. reflexivity. Qed.

Lemma rsum_pick_scale : forall (w : Z -> Z) (v : Z -> R) d c zs,
  rsum (map (fun z => if (w z =? c)%Z then d * v z else 0) zs) = d * rsum (map (fun z => if (w z =? c)%Z then v z else 0) zs).
Proof.
  intros w v d c zs. unfold rsum. induction zs as [|z zs IH]; cbn [map fold_right]; [ring|]. rewrite IH. destruct (w z =? c)%Z; ring.
Qed.

Lemma px_column_amount : forall su l j d g, px Column su l j (with_amount d g) = d * px Column su l j (with_amount 1 g).
Proof.
  intros su l j d g. unfold px, true_events. rewrite !d2_amount. cbn [with_amount g_part].
  unfold particle_events, colden_events. change (along l (with_amount d g)) with (along l g).
  change (along l (with_amount 1 g)) with (along l g). cbn [with_amount g_dens].
  destruct (skips _ _ _ _ _); [unfold rsum; simpl; ring|]. cbv zeta.
  rewrite !at_cell_map, !rsum_pick_scale. ring.
Qed.

Lemma tau_loop_all : forall n tt v zs, (forall z, tt <= v z) -> tau_loop_events n tt v zs = map (fun z => (wrap_index z n, v z)) zs.
Proof.
  intros n tt v zs H. induction zs as [|z zs IH]; [reflexivity|]. cbn [tau_loop_events map]. f_equal.
  destruct (Rlt_dec (v z) tt) as [Hlt|_]; [specialize (H z); lra|exact IH].
Qed.

Definition uncut (su : setup) : Prop := tautail (su_line su) <= 0.

Lemma unit_value_amount : forall su l d g z, unit_value su l (with_amount d g) z = unit_value su l g z.
Proof. reflexivity. Qed.
Lemma tau_window_amount : forall su l d g, tau_window su l (with_amount d g) = tau_window su l g.
Proof. reflexivity. Qed.

Lemma px_depth_amount : forall su l j d g, no_gain su -> uncut su -> su_kern su <> Voronoi -> (0 < su_nbins su)%nat -> 0 < su_unit su ->
  0 < g_temp g -> (0 < p_h (g_part g))%Z -> 0 <= d ->
  px Depth su l j (with_amount d g) = d * px Depth su l j (with_amount 1 g).
Proof.
  intros su l j d g Hg Hu Hk Hn H0 Ht Hh Hd. unfold px. rewrite !true_depth by assumption. rewrite !d2_amount, !tau_window_amount.
  cbn [with_amount g_part g_dens]. destruct (skips _ _ _ _ _); [unfold rsum; simpl; ring|].
  assert (V : forall e, 0 <= e -> forall z, tautail (su_line su) <= e * unit_value su l (with_amount e g) z).
  { intros e He z. pose proof (unit_value_nonneg su l g z Hg Hk Hn H0 Ht Hh) as U. unfold uncut in Hu.
    change (unit_value su l (with_amount e g) z) with (unit_value su l g z).
    assert (0 <= e * unit_value su l g z) by (apply Rmult_le_pos; assumption). lra. }
  rewrite !(tau_loop_all _ _ _ _ (V d Hd)), !(tau_loop_all _ _ _ _ (V 1 ltac:(lra))).
  rewrite !at_cell_app, !rsum_app, !at_cell_map, !rsum_pick_scale.
  change (unit_value su l (with_amount d g)) with (unit_value su l g).
  change (unit_value su l (with_amount 1 g)) with (unit_value su l g). ring.
Qed.

Lemma tau_loop_nonneg : forall n tt v zs c, (forall z, 0 <= v z) -> 0 <= rsum (at_cell c (tau_loop_events n tt v zs)).
Proof.
  intros n tt v zs c H. apply rsum_nonneg. intros x Hx. apply in_at_cell in Hx. destruct Hx as (e & He & <-).
  induction zs as [|z zs IH]; [destruct He|]. cbn [tau_loop_events] in He. destruct He as [<- | He]; [apply H|].
  destruct (Rlt_dec (v z) tt); [destruct He|apply IH; exact He].
Qed.

Lemma tau_loop_mono : forall n tt v v' zs c, (forall z, 0 <= v z <= v' z) ->
  rsum (at_cell c (tau_loop_events n tt v zs)) <= rsum (at_cell c (tau_loop_events n tt v' zs)).
Proof.
  intros n tt v v' zs c H. induction zs as [|z zs IH]; [right; reflexivity|]. cbn [tau_loop_events].
  assert (N : 0 <= rsum (at_cell c (tau_loop_events n tt v' zs))) by (apply tau_loop_nonneg; intros y; specialize (H y); lra).
  pose proof (H z) as Hz. unfold at_cell in *. cbn [filter fst].
  destruct (wrap_index z n =? c)%Z; cbn [map snd]; unfold rsum in *; cbn [fold_right];
    destruct (Rlt_dec (v z) tt), (Rlt_dec (v' z) tt); cbn [filter map fold_right]; lra.
Qed.

Lemma px_depth_mono : forall su l j d d' g, no_gain su -> su_kern su <> Voronoi -> (0 < su_nbins su)%nat -> 0 < su_unit su ->
  0 < g_temp g -> (0 < p_h (g_part g))%Z -> 0 <= d <= d' ->
  0 <= px Depth su l j (with_amount d g) <= px Depth su l j (with_amount d' g).
Proof.
  intros su l j d d' g Hg Hk Hn H0 Ht Hh Hd. unfold px. rewrite !true_depth by assumption. rewrite !d2_amount, !tau_window_amount.
  cbn [with_amount g_part g_dens]. destruct (skips _ _ _ _ _); [unfold rsum; simpl; lra|].
  change (unit_value su l (with_amount d g)) with (unit_value su l g).
  change (unit_value su l (with_amount d' g)) with (unit_value su l g).
  rewrite !at_cell_app, !rsum_app.
  assert (V : forall z, 0 <= d * unit_value su l g z <= d' * unit_value su l g z).
  { intros z. pose proof (unit_value_nonneg su l g z Hg Hk Hn H0 Ht Hh) as U. split; [apply Rmult_le_pos; lra|apply Rmult_le_compat_r; lra]. }
  split.
  - apply Rplus_le_le_0_compat; apply tau_loop_nonneg; intros z; apply V.
  - apply Rplus_le_compat; apply tau_loop_mono; exact V.
Qed.

Lemma frac_nonneg : forall k a b h d r, k <> Voronoi -> 0 < h -> 0 <= kern_frac k a b h d r.
Proof.
  intros k a b h d r Hk Hh.
  assert (S : forall K, (forall q, 0 <= q -> 0 <= K q) -> 0 <= sph_kern_frac K a b h d r).
  { intros K HK. unfold sph_kern_frac. destruct (Rlt_dec (Rmin b r) (Rmax a (- r))) as [|Hl]; [lra|]. cbv zeta.
    assert (Q : forall x, 0 <= K (sqrt x / h)).
    { intros x. apply HK. unfold Rdiv. apply Rmult_le_pos; [apply sqrt_pos|left; apply Rinv_0_lt_compat; exact Hh]. }
    apply Rmult_le_pos; [lra|]. cbn [seq fold_left].
    repeat match goal with |- context [K (sqrt ?x / h)] => let u := fresh "u" in pose proof (Q x); set (u := K (sqrt x / h)) in * ; clearbody u end. lra. }
  destruct k; cbn [kern_frac].
  - unfold tophat_kern_frac. apply Rmult_le_pos; [|apply Rmax_l]. pose proof PI_RGT_0. unfold Rdiv. apply Rmult_le_pos; [lra|]. left. apply Rinv_0_lt_compat. lra.
  - apply S, cubic_nonneg.
  - congruence.
  - apply S, quintic_nonneg.
Qed.

Lemma px_column_nonneg : forall su l j g, su_kern su <> Voronoi -> 0 < su_unit su -> (0 < p_h (g_part g))%Z -> 0 <= g_dens g -> 0 <= px Column su l j g.
Proof.
  intros su l j g Hk Hu Hh Hd. unfold px, true_events, particle_events, colden_events.
  destruct (skips _ _ _ _ _); [unfold rsum; simpl; lra|]. cbv zeta. rewrite at_cell_map. apply rsum_nonneg.
  intros x Hx. apply in_map_iff in Hx. destruct Hx as (z & <- & _). destruct (_ =? _)%Z; [|lra].
  apply Rmult_le_pos; [exact Hd|]. apply frac_nonneg; [exact Hk|]. apply Rmult_lt_0_compat; [exact Hu|apply IZR_lt; exact Hh].
Qed.

Lemma px_column_mono : forall su l j d d' g, su_kern su <> Voronoi -> 0 < su_unit su -> (0 < p_h (g_part g))%Z -> 0 <= d <= d' ->
  0 <= px Column su l j (with_amount d g) <= px Column su l j (with_amount d' g).
Proof.
  intros su l j d d' g Hk Hu Hh Hd. rewrite (px_column_amount su l j d), (px_column_amount su l j d').
  assert (U : 0 <= px Column su l j (with_amount 1 g)) by (apply px_column_nonneg; cbn [with_amount g_part g_dens]; lra || assumption).
  split; [apply Rmult_le_pos; lra|apply Rmult_le_compat_r; lra].
Qed.

(** ** Whole spectra *)
Lemma rsum_perm_map : forall (A : Type) (f : A -> R) a b, Permutation a b -> rsum (map f a) = rsum (map f b).
Proof. intros. apply rsum_perm, Permutation_map. assumption. Qed.

Lemma good_amounts : forall su f gs, Forall (good_gas su) (map (fun g => with_amount (f g) g) gs) -> Forall (good_gas su) gs.
Proof. intros su f gs H. induction gs as [|g gs IH]; [constructor|]. inversion H; subst. constructor; [assumption|apply IH; assumption]. Qed.

Lemma C106_additive_aux : forall qu su ls gs f0 f1 a b pos0 pos1 pos2 ranks0 ranks1 ranks2,
  (0 < su_nbins su)%nat -> su_kern su <> Voronoi -> Forall (good_line (su_box su)) ls ->
  ranks_ok pos0 su ls ranks0 -> ranks_ok pos1 su ls ranks1 -> ranks_ok pos2 su ls ranks2 ->
  Permutation (all_gas ranks0) (map (fun g => with_amount (f0 g) g) gs) ->
  Permutation (all_gas ranks1) (map (fun g => with_amount (f1 g) g) gs) ->
  Permutation (all_gas ranks2) (map (fun g => with_amount (a * f0 g + b * f1 g) g) gs) ->
  (qu = Depth -> no_gain su /\ tautail (su_line su) <= 0 /\ 0 < su_unit su /\
     Forall (fun g => 0 < g_temp g /\ 0 <= f0 g /\ 0 <= f1 g /\ 0 <= a * f0 g + b * f1 g) gs) ->
  exists out0 out1 out2, compute_spectra qu pos0 su ls ranks0 = Some out0 /\ compute_spectra qu pos1 su ls ranks1 = Some out1 /\
    compute_spectra qu pos2 su ls ranks2 = Some out2 /\
    length out0 = (length ls * su_nbins su)%nat /\ length out1 = length out0 /\ length out2 = length out0 /\
    forall p, nth p out2 0 = a * nth p out0 0 + b * nth p out1 0.
Proof.
  intros qu su ls gs f0 f1 a b pos0 pos1 pos2 ranks0 ranks1 ranks2 Hn Hk Hls R0 R1 R2 P0 P1 P2 HD.
  destruct (compute_spectra_px qu pos0 su ls ranks0 Hn Hk Hls R0) as (o0 & E0 & L0 & V0).
  destruct (compute_spectra_px qu pos1 su ls ranks1 Hn Hk Hls R1) as (o1 & E1 & L1 & V1).
  destruct (compute_spectra_px qu pos2 su ls ranks2 Hn Hk Hls R2) as (o2 & E2 & L2 & V2).
  exists o0, o1, o2. split; [exact E0|]. split; [exact E1|]. split; [exact E2|].
  split; [exact L0|]. split; [congruence|]. split; [congruence|].
  assert (G : Forall (good_gas su) gs).
  { apply (good_amounts su f0). eapply Permutation_Forall; [exact P0|]. eapply all_gas_good; exact R0. }
  intros p. destruct (Nat.lt_ge_cases p (length ls * su_nbins su)) as [Hp|Hp].
  2:{ rewrite !nth_overflow by lia. ring. }
  assert (X : exists i j, p = (i * su_nbins su + j)%nat /\ (i < length ls)%nat /\ (j < su_nbins su)%nat).
  { exists (p / su_nbins su)%nat, (p mod su_nbins su)%nat. split; [|split].
    - rewrite Nat.mul_comm. apply Nat.div_mod. lia.
    - apply Nat.div_lt_upper_bound; lia.
    - apply Nat.mod_upper_bound. lia. }
  destruct X as (i & j & -> & Hi & Hj). destruct (nth_error ls i) as [l|] eqn:El; [|apply nth_error_None in El; lia].
  rewrite (V0 i l j El Hj), (V1 i l j El Hj), (V2 i l j El Hj).
  rewrite (rsum_perm_map _ _ _ _ P0), (rsum_perm_map _ _ _ _ P1), (rsum_perm_map _ _ _ _ P2), !map_map.
  clear - HD Hk Hn G. induction gs as [|g gs IH]; unfold rsum in *; cbn [map fold_right]; [ring|].
  inversion G as [|? ? Gg Gs]; subst. rewrite IH; [|intros E; destruct (HD E) as (A1 & A2 & A3 & A4); inversion A4; auto|exact Gs].
  destruct qu.
  - destruct (HD eq_refl) as (A1 & A2 & A3 & A4). inversion A4 as [|? ? (B1 & B2 & B3 & B4) _]; subst. destruct Gg as (Gh & _).
    rewrite (px_depth_amount su l j (a * f0 g + b * f1 g)), (px_depth_amount su l j (f0 g)), (px_depth_amount su l j (f1 g)) by assumption. ring.
  - rewrite (px_column_amount su l j (a * f0 g + b * f1 g)), (px_column_amount su l j (f0 g)), (px_column_amount su l j (f1 g)). ring.
Qed.

Lemma C106_more_aux : forall qu su ls gs f0 f1 extra pos0 pos1 ranks0 ranks1,
  (0 < su_nbins su)%nat -> su_kern su <> Voronoi -> Forall (good_line (su_box su)) ls -> 0 < su_unit su ->
  ranks_ok pos0 su ls ranks0 -> ranks_ok pos1 su ls ranks1 ->
  Permutation (all_gas ranks0) (map (fun g => with_amount (f0 g) g) gs) ->
  Permutation (all_gas ranks1) (map (fun g => with_amount (f1 g) g) gs ++ extra) ->
  Forall (fun g => 0 <= f0 g <= f1 g) gs -> Forall (fun g => 0 <= g_dens g) extra ->
  (qu = Depth -> no_gain su /\ Forall (fun g => 0 < g_temp g) (gs ++ extra)) ->
  exists out0 out1, compute_spectra qu pos0 su ls ranks0 = Some out0 /\ compute_spectra qu pos1 su ls ranks1 = Some out1 /\
    length out0 = (length ls * su_nbins su)%nat /\ length out1 = length out0 /\
    forall p, 0 <= nth p out0 0 <= nth p out1 0.
Proof.
  intros qu su ls gs f0 f1 extra pos0 pos1 ranks0 ranks1 Hn Hk Hls Hu R0 R1 P0 P1 Hf Hx HD.
  destruct (compute_spectra_px qu pos0 su ls ranks0 Hn Hk Hls R0) as (o0 & E0 & L0 & V0).
  destruct (compute_spectra_px qu pos1 su ls ranks1 Hn Hk Hls R1) as (o1 & E1 & L1 & V1).
  exists o0, o1. split; [exact E0|]. split; [exact E1|].
  split; [exact L0|]. split; [congruence|].
  assert (G1 : Forall (good_gas su) (map (fun g => with_amount (f1 g) g) gs ++ extra)).
  { eapply Permutation_Forall; [exact P1|]. eapply all_gas_good; exact R1. }
  apply Forall_app in G1. destruct G1 as (G & Gx). apply good_amounts in G.
  intros p. destruct (Nat.lt_ge_cases p (length ls * su_nbins su)) as [Hp|Hp].
  2:{ rewrite !nth_overflow by lia. lra. }
  assert (X : exists i j, p = (i * su_nbins su + j)%nat /\ (i < length ls)%nat /\ (j < su_nbins su)%nat).
  { exists (p / su_nbins su)%nat, (p mod su_nbins su)%nat. split; [|split].
    - rewrite Nat.mul_comm. apply Nat.div_mod. lia.
    - apply Nat.div_lt_upper_bound; lia.
    - apply Nat.mod_upper_bound. lia. }
  destruct X as (i & j & -> & Hi & Hj). destruct (nth_error ls i) as [l|] eqn:El; [|apply nth_error_None in El; lia].
  rewrite (V0 i l j El Hj), (V1 i l j El Hj).
  rewrite (rsum_perm_map _ _ _ _ P0), (rsum_perm_map _ _ _ _ P1), map_app, rsum_app, !map_map.
  assert (M : 0 <= rsum (map (fun g => px qu su l j (with_amount (f0 g) g)) gs) <= rsum (map (fun g => px qu su l j (with_amount (f1 g) g)) gs)).
  { assert (HD' : qu = Depth -> no_gain su /\ Forall (fun g => 0 < g_temp g) gs).
    { intros E. destruct (HD E) as (A & B). apply Forall_app in B. tauto. }
    clear - HD' Hk Hn G Hf Hu. induction gs as [|g gs IH]; unfold rsum in *; cbn [map fold_right]; [lra|].
    inversion G as [|? ? Gg Gs]; inversion Hf as [|? ? Fg Fs]; subst.
    assert (0 <= px qu su l j (with_amount (f0 g) g) <= px qu su l j (with_amount (f1 g) g)).
    { destruct Gg as (Gh & _). destruct qu; [|apply px_column_mono; assumption].
      destruct (HD' eq_refl) as (A & B). inversion B; subst. apply px_depth_mono; assumption. }
    assert (I2 := IH Fs Gs ltac:(intros E; destruct (HD' E) as (A & B); inversion B; auto)). lra. }
  assert (N : 0 <= rsum (map (px qu su l j) extra)).
  { apply rsum_nonneg. intros x Hin. apply in_map_iff in Hin. destruct Hin as (g & <- & Hg).
    rewrite Forall_forall in Gx, Hx. pose proof (Hx g Hg) as Hd. destruct (Gx g Hg) as (Gh & _).
    destruct qu; [|apply px_column_nonneg; assumption].
    destruct (HD eq_refl) as (A & B). rewrite Forall_forall in B. specialize (B g ltac:(apply in_or_app; right; exact Hg)).
    replace g with (with_amount (g_dens g) g) by (destruct g; reflexivity).
    apply (px_depth_mono su l j (g_dens g) (g_dens g)); try assumption. lra. }
  lra.
Qed.
