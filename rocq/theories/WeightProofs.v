(** Lemmas for the density weighted quantities. *)
From Coq Require Import ZArith List Reals Bool Lra Lia Permutation.
From Verif Require Import Containers IndexModel IndexSpec IndexProofs AbsorptionModel AbsorptionSpec AbsorptionProofs
  VoronoiModel PipelineModel PipelineSpec PipelineProofs WeightModel WeightSpec.
Import ListNotations.
Local Open Scope R_scope.

(** The share of a particle of unit density. *)
Definition unit_px (su : setup) (l : sightline) (j : nat) (g : gas) : R := px Column su l j (with_dens g 1).

Lemma px_scale : forall su l j g d, px Column su l j (with_dens g d) = d * unit_px su l j g.
Proof.
  intros su l j g d. unfold unit_px, px, true_events, particle_events, with_dens. cbn [g_dens g_part].
  unfold colden_events.
  destruct (skips _ _ _ _ _); [simpl; unfold rsum; simpl; ring|].
  replace (along l (mkGas (g_part g) (g_vel g) d (g_temp g))) with (along l g) by reflexivity.
  replace (along l (mkGas (g_part g) (g_vel g) 1 (g_temp g))) with (along l g) by reflexivity.
  replace (d2_of su l (mkGas (g_part g) (g_vel g) d (g_temp g))) with (d2_of su l g) by reflexivity.
  replace (d2_of su l (mkGas (g_part g) (g_vel g) 1 (g_temp g))) with (d2_of su l g) by reflexivity.
  cbv zeta. set (pos1 := match su_kern su with Voronoi => _ | _ => _ end). set (zr := match su_kern su with Voronoi => _ | _ => _ end).
  set (zs := zrange_up _ _). clearbody zs. unfold at_cell, rsum.
  induction zs as [|z zs IH]; [simpl; ring|]. cbn [map filter fst].
  destruct (Z.eqb _ _); [|exact IH]. cbn [map snd fold_right]. rewrite IH. ring.
Qed.

Lemma px_dens : forall su l j g, px Column su l j g = g_dens g * unit_px su l j g.
Proof. intros su l j g. rewrite <- px_scale. destruct g. reflexivity. Qed.

Lemma rsum_nonneg_list : forall l, (forall x, In x l -> 0 <= x) -> 0 <= rsum l.
Proof.
  unfold rsum. induction l as [|x l IH]; intros H; simpl; [lra|].
  assert (0 <= x) by (apply H; left; reflexivity).
  assert (0 <= fold_right Rplus 0 l) by (apply IH; intros y Hy; apply H; right; exact Hy). lra.
Qed.

Lemma unit_px_nonneg : forall su l j g, su_kern su <> Voronoi -> 0 < su_unit su -> (0 < p_h (g_part g))%Z -> 0 <= unit_px su l j g.
Proof.
  intros su l j g Hk Hu Hh. unfold unit_px, px. apply rsum_nonneg_list. intros x Hx.
  apply in_at_cell in Hx. destruct Hx as (e & He & <-).
  unfold true_events, particle_events, with_dens in He. cbn [g_dens g_part] in He. unfold colden_events in He.
  destruct (skips _ _ _ _ _); [contradiction|]. apply in_map_iff in He. destruct He as (z & <- & _). cbn [snd].
  apply Rmult_le_pos; [lra|]. apply kern_frac_nonneg. left. apply Rmult_lt_0_compat; [exact Hu|]. apply IZR_lt. exact Hh.
Qed.

(** [f] applied to the density. *)
Definition redo (f : gas -> R) (g : gas) : gas := with_dens g (f g).

Lemma kept_redo : forall su ls f gs, filter (kept_by false su ls) (map (redo f) gs) = map (redo f) (filter (kept_by false su ls) gs).
Proof.
  intros su ls f. induction gs as [|g gs IH]; [reflexivity|]. cbn [map filter].
  assert (E : kept_by false su ls (redo f g) = kept_by false su ls g) by reflexivity.
  rewrite E. destruct (kept_by false su ls g); cbn [map]; rewrite IH; reflexivity.
Qed.

Lemma filter_twice : forall A (p q : A -> bool) l, (forall x, p x = true -> q x = true) -> filter p (filter q l) = filter p l.
Proof.
  intros A p q l H. induction l as [|x l IH]; [reflexivity|]. cbn [filter]. destruct (q x) eqn:Q.
  - cbn [filter]. rewrite IH. reflexivity.
  - destruct (p x) eqn:E; [rewrite (H x E) in Q; discriminate|exact IH].
Qed.

Lemma kept_weaken : forall pos su ls g, kept_by pos su ls g = true -> kept_by false su ls g = true.
Proof. intros pos su ls g. unfold kept_by. destruct (get_near_lines _ _ _) as [[|n m]|]; try discriminate. reflexivity. Qed.

Lemma good_redo : forall su f gs, Forall (good_gas su) gs -> Forall (good_gas su) (map (redo f) gs).
Proof. intros su f gs H. rewrite Forall_map. eapply Forall_impl; [|exact H]. intros g Hg. exact Hg. Qed.

(** The selection loses no mass, whatever replaces the density as long as nothing replaces nothing. *)
Lemma kept_sum : forall pos su ls gs order f, su_kern su <> Voronoi -> fits su ls gs ->
  schedule (length gs) order -> Forall (good_gas su) gs -> Forall (good_line (su_box su)) ls ->
  (pos = true -> Forall (fun g => 0 <= g_dens g) gs) -> (forall g, g_dens g = 0 -> f g = 0) ->
  read_particles pos su ls gs order = Some (filter (kept_by pos su ls) gs) /\
  forall l j, In l ls -> rsum (map (fun g => px Column su l j (redo f g)) (filter (kept_by pos su ls) gs)) =
                         rsum (map (fun g => px Column su l j (redo f g)) gs).
Proof.
  intros pos su ls gs order f Hk F Ho Hgs Hls Hpos Hf.
  assert (Sz : (Z.of_nat (length gs) <= 2 ^ 31)%Z) by (destruct F; lia).
  split; [apply read_particles_filter; assumption|]. intros l j Hl.
  assert (F' : fits su ls (map (redo f) gs)) by (unfold fits in *; rewrite map_length; exact F).
  destruct (read_particles_px false su ls (map (redo f) gs) order Hk F') as (kept & E & _ & _ & Sum);
    [rewrite map_length; exact Ho|apply good_redo; exact Hgs|exact Hls|discriminate|].
  rewrite read_particles_filter in E by (rewrite map_length; assumption). apply some_inj in E. subst kept.
  specialize (Sum Column l j Hl). rewrite kept_redo, !map_map in Sum. rewrite <- Sum.
  rewrite <- (filter_twice _ (kept_by pos su ls) (kept_by false su ls) gs) by (apply kept_weaken).
  apply rsum_filter. intros g Hg N. apply filter_In in Hg. destruct Hg as [Hg K].
  unfold kept_by in N, K. destruct (get_near_lines _ _ _) as [[|n m]|]; try discriminate.
  destruct pos; [|discriminate]. destruct (Rlt_dec 0 (g_dens g)) as [|Np]; [discriminate|].
  specialize (Hpos eq_refl). rewrite Forall_forall in Hpos. specialize (Hpos g Hg).
  apply px_empty. unfold redo, with_dens. cbn [g_dens]. apply Hf. lra.
Qed.

Definition gives (su : setup) (ls : list sightline) (r : outcome (list R)) (v : sightline -> nat -> R) : Prop :=
  exists out, r = Done out /\ length out = (length ls * su_nbins su)%nat /\
    forall i l j, nth_error ls i = Some l -> (j < su_nbins su)%nat -> nth (i * su_nbins su + j) out 0 = v l j.

Lemma gives_ext : forall su ls r v v', (forall l j, In l ls -> v l j = v' l j) -> gives su ls r v -> gives su ls r v'.
Proof.
  intros su ls r v v' H (a & E & L & V). exists a. split; [assumption|]. split; [assumption|].
  intros i l j Hl Hj. rewrite <- H by (eapply nth_error_In; eauto). apply V; assumption.
Qed.

(** One segment, for any preparation which replaces the density by [f] on the selection. *)
Lemma segment_gives : forall pos su ls s prepare f, (0 < su_nbins su)%nat -> su_kern su <> Voronoi ->
  Forall (good_line (su_box su)) ls -> segment_ok pos su ls s -> (forall g, g_dens g = 0 -> f g = 0) ->
  (filter (kept_by pos su ls) (fst s) <> [] ->
   prepare (filter (kept_by pos su ls) (fst s)) = Done (map (redo f) (filter (kept_by pos su ls) (fst s)))) ->
  gives su ls (weight_segment prepare pos su ls s) (fun l j => rsum (map (fun g => px Column su l j (redo f g)) (fst s))).
Proof.
  intros pos su ls (gs & (o1 & (o2 & o3))) prepare f Hn Hk Hls (Hgs & F & Hpos & Hs1 & Hs2 & Hs3) Hf Hp. cbn [fst snd] in *.
  destruct (kept_sum pos su ls gs o1 f Hk F Hs1 Hgs Hls Hpos Hf) as [E Sum].
  specialize (Hs2 _ E). unfold weight_segment. cbn [fst snd]. rewrite E.
  set (kept := filter (kept_by pos su ls) gs) in *.
  assert (Lk : (length kept <= length gs)%nat).
  { unfold kept. clear. induction gs as [|g gs IH]; cbn [filter length]; [lia|]. destruct (kept_by _ _ _ _); cbn [length]; lia. }
  assert (Hkept : Forall (good_gas su) kept).
  { rewrite Forall_forall in *. intros g Hg. apply filter_In in Hg. apply Hgs, Hg. }
  destruct kept as [|g0 kept0] eqn:K.
  - exists (repeat 0 (length ls * su_nbins su)). split; [reflexivity|]. split; [apply repeat_length|].
    intros i l j Hl Hj. rewrite nth_repeat0, <- Sum by (eapply nth_error_In; eauto). reflexivity.
  - rewrite (Hp ltac:(discriminate)). clear Hp.
    assert (F' : fits su ls (map (redo f) (g0 :: kept0))) by (unfold fits in *; rewrite map_length; destruct F; split; lia).
    destruct (interpolate_px Column su ls (map (redo f) (g0 :: kept0)) o2 o3 Hn Hk F') as (out & Eo & Lo & Vo);
      [rewrite map_length; exact Hs2|exact Hs3|apply good_redo; exact Hkept|exact Hls|].
    rewrite Eo. exists out. split; [reflexivity|]. split; [exact Lo|]. intros i l j Hl Hj.
    rewrite (Vo i l j Hl Hj), map_map. apply Sum. eapply nth_error_In; eauto.
Qed.

Lemma numerator_gives : forall su ls seg (v : gas -> sightline -> nat -> R) first rest,
  Forall (fun s => gives su ls (seg s) (fun l j => rsum (map (fun g => v g l j) (fst s)))) (first :: rest) ->
  gives su ls (numerator seg first rest) (fun l j => rsum (map (fun g => v g l j) (fst first ++ concat (map fst rest)))).
Proof.
  intros su ls seg v first rest H. inversion H as [|? ? Hf Hr]; subst. clear H. unfold numerator.
  revert Hr. generalize (seg first) Hf. generalize (fst first). clear first Hf.
  induction rest as [|s rest IH]; intros gs r Hf Hr.
  - cbn [fold_left map concat]. rewrite app_nil_r. exact Hf.
  - inversion Hr as [|? ? Hs Hr']; subst. cbn [fold_left map concat]. rewrite app_assoc. apply IH; [|exact Hr'].
    destruct Hf as (a & -> & La & Va). destruct Hs as (b & -> & Lb & Vb).
    destruct (add_arrays_spec a b) as (L1 & N1); [congruence|].
    exists (add_arrays a b). split; [reflexivity|]. split; [congruence|].
    intros i l j Hl Hj. rewrite N1, (Va i l j Hl Hj), (Vb i l j Hl Hj), map_app, rsum_app. reflexivity.
Qed.

Lemma density_gives : forall phys pos su ls ranks, (0 < su_nbins su)%nat -> su_kern su <> Voronoi ->
  Forall (good_line (su_box su)) ls -> Forall (rank_ok pos su ls) ranks ->
  exists den, get_density phys pos su ls ranks = Some den /\ length den = (length ls * su_nbins su)%nat /\
    forall i l j, nth_error ls i = Some l -> (j < su_nbins su)%nat ->
      nth (i * su_nbins su + j) den 0 = rsum (map (px Column su l j) (all_gas ranks)) / phys.
Proof.
  intros phys pos su ls ranks Hn Hk Hls Hr.
  destruct (compute_spectra_px Column pos su ls ranks Hn Hk Hls) as (out & E & L & V).
  { eapply Forall_impl; [|exact Hr]. intros r K. exact K. }
  exists (map (fun c => c / phys) out). split.
  - unfold get_density. unfold compute_spectra in E.
    replace (fold_left _ ranks _) with (Some out); [reflexivity|]. rewrite <- E. clear - Hk.
    assert (G : forall r, colden_rank pos su ls r = compute_rank Column pos su ls (fst r) (snd r)).
    { intros r. unfold colden_rank. destruct (su_kern su); try reflexivity. contradiction. }
    generalize (Some (repeat 0 (length ls * su_nbins su))). induction ranks as [|r ranks' IH].
    + intros acc. reflexivity.
    + intros acc. cbn [fold_left]. rewrite G. apply IH.
  - split; [rewrite map_length; exact L|]. intros i l j Hl Hj.
    rewrite <- (V i l j Hl Hj).
    assert (Z0 : 0 / phys = 0) by (unfold Rdiv; ring).
    rewrite <- Z0 at 1. apply (map_nth (fun c => c / phys)).
Qed.

Lemma divide_nth : forall num den k, length num = length den -> (k < length num)%nat ->
  nth k (divide num den) 0 = nth k num 0 / divisor (nth k den 0).
Proof.
  induction num as [|n num IH]; intros [|d den] k H K; cbn [length] in *; try lia.
  destruct k as [|k]; [reflexivity|]. cbn [divide nth]. apply IH; lia.
Qed.

Lemma divide_length : forall num den, length num = length den -> length (divide num den) = length num.
Proof.
  induction num as [|n num IH]; intros [|d den] H; [reflexivity|discriminate|discriminate|]. injection H as H.
  cbn [divide length]. rewrite IH by exact H. reflexivity.
Qed.

Lemma index_lt : forall (i n L j : nat), (i < L)%nat -> (j < n)%nat -> (i * n + j < L * n)%nat.
Proof. intros. nia. Qed.

(** The arithmetic of one pixel. *)
Definition sum_of (su : setup) (l : sightline) (j : nat) (w : gas -> R) (gs : list gas) : R :=
  rsum (map (fun g => g_dens g * w g * unit_px su l j g) gs).

Lemma carrying_sum : forall su l j w gs, rsum (map (px Column su l j) (carrying w gs)) = sum_of su l j w gs.
Proof.
  intros. unfold carrying, sum_of. rewrite map_map. f_equal. apply map_ext. intros g.
  change (mkGas (g_part g) (g_vel g) (g_dens g * w g) (g_temp g)) with (with_dens g (g_dens g * w g)).
  apply px_scale.
Qed.

Lemma sum_scaled : forall su l j w c gs, rsum (map (fun g => px Column su l j (redo (fun g => g_dens g * w g / c) g)) gs) = sum_of su l j w gs / c.
Proof.
  intros. unfold sum_of, rsum. induction gs as [|g gs IH]; cbn [map fold_right]; [unfold Rdiv; ring|].
  rewrite IH. unfold redo at 1. rewrite px_scale. unfold Rdiv. ring.
Qed.

Lemma plain_sum : forall su l j gs, rsum (map (px Column su l j) gs) = sum_of su l j (fun _ => 1) gs.
Proof.
  intros. unfold sum_of. f_equal. apply map_ext. intros g. rewrite px_dens. ring.
Qed.

Lemma sum_bounds : forall su l j w lo hi gs, su_kern su <> Voronoi -> 0 < su_unit su -> Forall (good_gas su) gs ->
  Forall (fun g => 0 <= g_dens g) gs -> Forall (fun g => lo <= w g <= hi) gs ->
  lo * sum_of su l j (fun _ => 1) gs <= sum_of su l j w gs <= hi * sum_of su l j (fun _ => 1) gs.
Proof.
  intros su l j w lo hi gs Hk Hu Hg Hd Hw. unfold sum_of, rsum.
  induction gs as [|g gs IH]; cbn [map fold_right]; [lra|].
  inversion Hg as [|? ? G1 G2]; subst. inversion Hd as [|? ? D1 D2]; subst. inversion Hw as [|? ? W1 W2]; subst.
  specialize (IH G2 D2 W2).
  assert (P : 0 <= g_dens g * unit_px su l j g).
  { apply Rmult_le_pos; [exact D1|]. apply unit_px_nonneg; [exact Hk|exact Hu|apply G1]. }
  assert (A : lo * (g_dens g * 1 * unit_px su l j g) <= g_dens g * w g * unit_px su l j g <= hi * (g_dens g * 1 * unit_px su l j g)).
  { replace (g_dens g * w g * unit_px su l j g) with (w g * (g_dens g * unit_px su l j g)) by ring.
    replace (g_dens g * 1 * unit_px su l j g) with (g_dens g * unit_px su l j g) by ring.
    split; apply Rmult_le_compat_r; try exact P; lra. }
  rewrite !Rmult_plus_distr_l. lra.
Qed.

Lemma sum_zero : forall su l j w gs, su_kern su <> Voronoi -> 0 < su_unit su -> Forall (good_gas su) gs ->
  Forall (fun g => 0 <= g_dens g) gs -> sum_of su l j (fun _ => 1) gs = 0 -> sum_of su l j w gs = 0.
Proof.
  intros su l j w gs Hk Hu Hg Hd. unfold sum_of, rsum. induction gs as [|g gs IH]; cbn [map fold_right]; [lra|]. intros H.
  inversion Hg as [|? ? G1 G2]; subst. inversion Hd as [|? ? D1 D2]; subst.
  assert (P : 0 <= g_dens g * unit_px su l j g).
  { apply Rmult_le_pos; [exact D1|]. apply unit_px_nonneg; [exact Hk|exact Hu|apply G1]. }
  assert (Q := proj1 (sum_bounds su l j (fun _ => 1) 0 1 gs Hk Hu G2 D2 ltac:(apply Forall_forall; intros; lra))).
  unfold sum_of, rsum in Q. rewrite Rmult_0_l in Q.
  assert (Z1 : g_dens g * unit_px su l j g = 0) by lra.
  rewrite IH by (assumption || lra).
  replace (g_dens g * w g * unit_px su l j g) with (w g * (g_dens g * unit_px su l j g)) by ring. rewrite Z1. ring.
Qed.

Lemma sum_pos : forall su l j gs, su_kern su <> Voronoi -> 0 < su_unit su -> Forall (good_gas su) gs ->
  Forall (fun g => 0 <= g_dens g) gs -> 0 <= sum_of su l j (fun _ => 1) gs.
Proof.
  intros su l j gs Hk Hu Hg Hd.
  assert (Q := proj1 (sum_bounds su l j (fun _ => 1) 0 1 gs Hk Hu Hg Hd ltac:(apply Forall_forall; intros; lra))). lra.
Qed.

Lemma sum_app : forall su l j w a b, sum_of su l j w (a ++ b) = sum_of su l j w a + sum_of su l j w b.
Proof. intros. unfold sum_of. rewrite map_app, rsum_app. reflexivity. Qed.

Lemma sum_perm : forall su l j w a b, Permutation a b -> sum_of su l j w a = sum_of su l j w b.
Proof. intros. unfold sum_of. apply rsum_perm, Permutation_map. assumption. Qed.

Definition gas_of (r : segment * list segment) : list gas := fst (fst r) ++ concat (map fst (snd r)).

Lemma gas_of_good : forall pos su ls r, rank_ok pos su ls r -> Forall (good_gas su) (gas_of r).
Proof.
  intros pos su ls r H. assert (G := all_gas_good pos su ls [r]). unfold all_gas in G. cbn [map concat] in G.
  rewrite app_nil_r in G. apply G. constructor; [exact H|constructor].
Qed.

(** One pixel of the quotient. *)
Lemma share_pixel : forall su l j w mine others all c, (0 < su_nbins su)%nat -> su_kern su <> Voronoi -> 0 < su_unit su -> 0 < c ->
  good_line (su_box su) l -> Forall (good_gas su) mine -> Forall (good_gas su) all ->
  Permutation all (mine ++ others) -> Forall (fun g => 0 <= g_dens g) all ->
  share su l j w mine all (sum_of su l j w mine / c / divisor (rsum (map (px Column su l j) all) / c)).
Proof.
  intros su l j w mine others all c Hn Hk Hu Hc Hl Gm Ga P D.
  exists (sum_of su l j w mine), (sum_of su l j (fun _ => 1) all).
  assert (Gc : Forall (good_gas su) (carrying w mine)).
  { unfold carrying. rewrite Forall_map. eapply Forall_impl; [|exact Gm]. intros g Hg. exact Hg. }
  split. { apply pixel_sum_px; [exact Hn|exact Gc|exact Hl|]. symmetry. apply carrying_sum. }
  split. { apply pixel_sum_px; [exact Hn|exact Ga|exact Hl|]. symmetry. apply plain_sum. }
  rewrite plain_sum. set (den := sum_of su l j (fun _ => 1) all).
  assert (Dp : 0 <= den) by (apply sum_pos; assumption).
  split; [exact Dp|]. unfold divisor. split.
  - intros Dpos. assert (Q : den / c <> 0).
    { assert (0 < den / c) by (apply Rdiv_lt_0_compat; assumption). lra. }
    destruct (Req_EM_T (den / c) 0); [contradiction|]. field. split; lra.
  - intros D0. rewrite D0. destruct (Req_EM_T (0 / c) 0) as [_|N]; [|exfalso; apply N; unfold Rdiv; ring].
    assert (D' : Forall (fun g => 0 <= g_dens g) (mine ++ others)) by (eapply Permutation_Forall; eassumption).
    apply Forall_app in D'. destruct D' as [Dm Do].
    assert (Gmo : Forall (good_gas su) (mine ++ others)) by (eapply Permutation_Forall; eassumption).
    apply Forall_app in Gmo. destruct Gmo as [_ Go].
    assert (S0 : sum_of su l j (fun _ => 1) mine = 0).
    { unfold den in D0. rewrite (sum_perm _ _ _ _ _ _ P), sum_app in D0.
      assert (A := sum_pos su l j mine Hk Hu Gm Dm). assert (B := sum_pos su l j others Hk Hu Go Do). lra. }
    rewrite (sum_zero su l j w mine Hk Hu Gm Dm S0). unfold Rdiv. ring.
Qed.

Lemma mass_weight_share : forall seg w phys pos su ls mine ranks others,
  (0 < su_nbins su)%nat -> su_kern su <> Voronoi -> 0 < su_unit su -> 0 < phys ->
  Forall (good_line (su_box su)) ls -> rank_ok pos su ls mine -> Forall (rank_ok pos su ls) ranks ->
  Permutation (all_gas ranks) (gas_of mine ++ others) -> Forall (fun g => 0 <= g_dens g) (all_gas ranks) ->
  Forall (fun s => gives su ls (seg s) (fun l j => sum_of su l j w (fst s) / phys)) (fst mine :: snd mine) ->
  exists out, mass_weight HDF5 seg phys pos su ls mine ranks = Done out /\ length out = (length ls * su_nbins su)%nat /\
    forall i l j, nth_error ls i = Some l -> (j < su_nbins su)%nat ->
      share su l j w (gas_of mine) (all_gas ranks) (nth (i * su_nbins su + j) out 0).
Proof.
  intros seg w phys pos su ls mine ranks others Hn Hk Hu Hp Hls Hm Hr P D G.
  assert (N : gives su ls (numerator seg (fst mine) (snd mine)) (fun l j => sum_of su l j w (gas_of mine) / phys)).
  { eapply gives_ext; [|apply (numerator_gives su ls seg (fun g l j => px Column su l j (redo (fun g => g_dens g * w g / phys) g)))].
    - intros l j _. cbv beta. rewrite sum_scaled. reflexivity.
    - eapply Forall_impl; [|exact G]. intros s Hs. eapply gives_ext; [|exact Hs]. intros l j _. cbv beta.
      rewrite sum_scaled. reflexivity. }
  destruct N as (num & En & Ln & Vn).
  destruct (density_gives phys pos su ls ranks Hn Hk Hls Hr) as (den & Ed & Ld & Vd).
  unfold mass_weight. rewrite En, Ed. exists (divide num den). split; [reflexivity|].
  split; [rewrite divide_length; congruence|]. intros i l j Hl Hj.
  assert (Hi : (i < length ls)%nat) by (apply nth_error_Some; congruence).
  rewrite divide_nth by (try congruence; rewrite Ln; apply index_lt; assumption).
  rewrite (Vn i l j Hl Hj), (Vd i l j Hl Hj).
  apply share_pixel with (others := others); try assumption.
  - rewrite Forall_forall in Hls. apply Hls. eapply nth_error_In; eauto.
  - eapply gas_of_good; eassumption.
  - eapply all_gas_good. eapply Forall_impl; [|exact Hr]. intros r K. exact K.
Qed.

Lemma times_gives : forall w phys pos su ls s, (0 < su_nbins su)%nat -> su_kern su <> Voronoi ->
  Forall (good_line (su_box su)) ls -> segment_ok pos su ls s ->
  gives su ls (weight_segment (times w phys) pos su ls s) (fun l j => sum_of su l j w (fst s) / phys).
Proof.
  intros w phys pos su ls s Hn Hk Hls Hs.
  eapply gives_ext; [|apply (segment_gives pos su ls s (times w phys) (fun g => g_dens g * w g / phys))]; try assumption.
  - intros l j _. cbv beta. apply sum_scaled.
  - intros g ->. unfold Rdiv. ring.
  - intros _. reflexivity.
Qed.

Lemma rank_segments : forall pos su ls r (Q : segment -> Prop), rank_ok pos su ls r -> (forall s, segment_ok pos su ls s -> Q s) ->
  Forall Q (fst r :: snd r).
Proof. intros pos su ls r Q [A B] H. constructor; [apply H; exact A|]. eapply Forall_impl; [|exact B]. exact H. Qed.

Lemma C68_temp_aux : forall phys pos su ls mine ranks others,
  (0 < su_nbins su)%nat -> su_kern su <> Voronoi -> 0 < su_unit su -> 0 < phys ->
  Forall (good_line (su_box su)) ls -> rank_ok pos su ls mine -> Forall (rank_ok pos su ls) ranks ->
  Permutation (all_gas ranks) (all_gas [mine] ++ others) -> Forall (fun g => 0 <= g_dens g) (all_gas ranks) ->
  exists out, get_temp HDF5 phys pos su ls mine ranks = Done out /\ length out = (length ls * su_nbins su)%nat /\
    forall i l j, nth_error ls i = Some l -> (j < su_nbins su)%nat ->
      share su l j g_temp (all_gas [mine]) (all_gas ranks) (nth (i * su_nbins su + j) out 0).
Proof.
  intros phys pos su ls mine ranks others Hn Hk Hu Hp Hls Hm Hr P D.
  assert (E : all_gas [mine] = gas_of mine) by (unfold all_gas, gas_of; cbn [map concat]; apply app_nil_r).
  rewrite E in *. unfold get_temp. apply mass_weight_share with (others := others); try assumption.
  eapply rank_segments; [exact Hm|]. intros s Hs. apply times_gives; assumption.
Qed.

(** The share of all the particles is within the range of the quantity. *)
Lemma share_range : forall su l j w lo hi gs x, (0 < su_nbins su)%nat -> su_kern su <> Voronoi -> 0 < su_unit su ->
  good_line (su_box su) l -> Forall (good_gas su) gs -> Forall (fun g => 0 <= g_dens g) gs ->
  Forall (fun g => lo <= w g <= hi) gs -> share su l j w gs gs x ->
  lo <= x <= hi \/ (x = 0 /\ pixel_sum Column su l j gs 0).
Proof.
  intros su l j w lo hi gs x Hn Hk Hu Hl Hg Hd Hw (num & den & A & B & C & D & E).
  assert (Gc : Forall (good_gas su) (carrying w gs)).
  { unfold carrying. rewrite Forall_map. eapply Forall_impl; [|exact Hg]. intros g H. exact H. }
  apply pixel_sum_px in A; [|assumption..]. rewrite carrying_sum in A.
  assert (B' := B). apply pixel_sum_px in B'; [|assumption..]. rewrite plain_sum in B'.
  destruct C as [C|C].
  - left. specialize (D C). destruct (sum_bounds su l j w lo hi gs Hk Hu Hg Hd Hw) as [F G]. rewrite <- A, <- B' in F, G.
    rewrite <- D in F, G. split; apply Rmult_le_reg_r with den; assumption.
  - right. split; [apply E; symmetry; exact C|]. rewrite C. exact B.
Qed.
