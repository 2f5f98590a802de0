(** Proofs about the mirror image of the optical depth, and the cases outside the guards. *)
From Coq Require Import ZArith List Reals Lra Lia Permutation Psatz.
From Verif Require Import Containers IndexModel IndexSpec IndexProofs AbsorptionModel AbsorptionSpec AbsorptionProofs KernelProofs TauProofs
  PipelineModel PipelineSpec PipelineProofs SymmetrySpec SymmetryProofs SymmetryProofs2 SymmetryProofs3.
From Flocq Require Import Core.Raux.
Import ListNotations.
Local Open Scope R_scope.

Lemma inner_mirror : forall profile k b d h aa v, (forall u a, profile (- u) a = profile u a) ->
  tau_kern_inner profile k b d h aa (- v) = tau_kern_inner profile k b d h aa v.
Proof.
  intros profile k b d h aa v Hp. unfold tau_kern_inner. cbv zeta. generalize (m_vhigh k d h). intros r. f_equal. cbn [seq fold_left].
  assert (Q : forall i j, INR i + INR j = 8 ->
    profile ((INR i * (2 * r / 8) - r - - v) / b) aa * tau_weight k (sqrt (d + (INR i * (2 * r / 8) - r) * (INR i * (2 * r / 8) - r)) / h) =
    profile ((INR j * (2 * r / 8) - r - v) / b) aa * tau_weight k (sqrt (d + (INR j * (2 * r / 8) - r) * (INR j * (2 * r / 8) - r)) / h)).
  { intros i j E. replace (INR i) with (8 - INR j) by lra.
    assert (X : r = 4 * (2 * r / 8)) by field. set (x := 2 * r / 8) in *. clearbody x. clear E. subst r. rewrite <- Hp.
    replace (- (((8 - INR j) * x - 4 * x - - v) / b)) with ((INR j * x - 4 * x - v) / b) by (unfold Rdiv; ring).
    replace (((8 - INR j) * x - 4 * x) * ((8 - INR j) * x - 4 * x)) with ((INR j * x - 4 * x) * (INR j * x - 4 * x)) by ring.
    reflexivity. }
  rewrite (Q 1%nat 7%nat), (Q 2%nat 6%nat), (Q 3%nat 5%nat), (Q 4%nat 4%nat), (Q 5%nat 3%nat), (Q 6%nat 2%nat), (Q 7%nat 1%nat) by (simpl; ring).
  ring.
Qed.

Lemma fold_rsum : forall (f : nat -> R) l a, fold_left (fun t i => t + f i) l a = a + rsum (map f l).
Proof. intros f l. induction l as [|x l IH]; intros a; unfold rsum in *; cbn [fold_left map fold_right]; [ring|]. rewrite IH. ring. Qed.

Lemma seq_mirror : forall (f : nat -> R) m, rsum (map f (seq 1 m)) = rsum (map (fun i => f (S m - i)%nat) (seq 1 m)).
Proof.
  intros f m. rewrite <- (rsum_rev (map f (seq 1 m))), <- map_rev.
  assert (E : rev (seq 1 m) = map (fun i => (S m - i)%nat) (seq 1 m)).
  { apply (nth_ext _ _ 0%nat 0%nat); [rewrite rev_length, map_length; reflexivity|].
    intros i Hi. rewrite rev_length, seq_length in Hi.
    rewrite rev_nth by (rewrite seq_length; exact Hi). rewrite seq_length, seq_nth by lia.
    rewrite (nth_indep _ 0%nat ((fun i => (S m - i)%nat) 0%nat)) by (rewrite map_length, seq_length; exact Hi).
    rewrite map_nth, seq_nth by lia. lia. }
  rewrite E, map_map. reflexivity.
Qed.

Lemma outer_mirror : forall profile k b d h aa a w, 0 < b -> 0 < w -> (forall u c, profile (- u) c = profile u c) ->
  tau_kern_outer profile k b d h aa (- (a + w)) (- (a + w) + w) = tau_kern_outer profile k b d h aa a (a + w).
Proof.
  intros profile k b d h aa a w Hb Hw Hp. unfold tau_kern_outer. cbv zeta.
  replace (- (a + w) + w - - (a + w)) with w by ring. replace (a + w - a) with w by ring.
  destruct (Rlt_dec w (b / 2)) as [Hs|Hs].
  - replace ((- (a + w) + w + - (a + w)) / 2) with (- ((a + w + a) / 2)) by field. apply inner_mirror, Hp.
  - set (N := (2 * Zceil (w / (b / 2) / 2) + 1)%Z). set (dv := w / (IZR N - 1)).
    assert (B : 0 < w / (b / 2) / 2).
    { apply Rmult_lt_0_compat; [|lra]. apply Rmult_lt_0_compat; [exact Hw|]. apply Rinv_0_lt_compat. lra. }
    assert (C : (0 < Zceil (w / (b / 2) / 2))%Z).
    { apply lt_IZR. eapply Rlt_le_trans; [exact B|apply Zceil_ub]. }
    assert (HN : (3 <= N)%Z) by (unfold N; lia).
    assert (HN' : 2 <= IZR N - 1) by (apply IZR_le in HN; lra).
    rewrite !fold_rsum. rewrite (seq_mirror _ (Z.to_nat (N - 2))).
    set (inner := tau_kern_inner profile k b d h aa) in *.
    assert (M : forall v, inner (- v) = inner v) by (intros v; apply inner_mirror, Hp).
    replace (- (a + w) + w) with (- a) by ring. rewrite !M.
    f_equal. rewrite (rsum_map_ext _ (fun i => inner (INR (S (Z.to_nat (N - 2)) - i) * dv + - (a + w))) (fun i => inner (INR i * dv + a))).
    + unfold Rdiv. ring.
    + intros i Hi. apply in_seq in Hi. rewrite <- M. f_equal. rewrite minus_INR by lia.
      assert (Es : INR (S (Z.to_nat (N - 2))) = IZR N - 1).
      { rewrite INR_IZR_INZ. rewrite <- (minus_IZR N 1). f_equal. lia. }
      rewrite Es. unfold dv. field. lra.
Qed.

(** ** Windows *)
Lemma zrange_both : forall Z0 h, Permutation (zrange_up Z0 h ++ zrange_down (Z0 - 1) h) (zrange_up (Z0 - Z.of_nat h) (h + h)).
Proof.
  intros Z0 h. assert (D : Permutation (zrange_down (Z0 - 1) h) (zrange_up (Z0 - Z.of_nat h) h)).
  { unfold zrange_down. induction h as [|h IH]; [constructor|].
    rewrite seq_S, map_app. cbn [map]. unfold zrange_up. cbn [seq map]. rewrite <- seq_shift, map_map.
    eapply Permutation_trans; [apply Permutation_sym, Permutation_cons_append|].
    replace (Z0 - 1 - Z.of_nat (0 + h))%Z with (Z0 - Z.of_nat (S h) + Z.of_nat 0)%Z by lia. apply perm_skip.
    eapply Permutation_trans; [exact IH|]. apply Permutation_refl'. unfold zrange_up. apply map_ext. intros i. lia. }
  eapply Permutation_trans; [apply Permutation_app_comm|].
  eapply Permutation_trans; [apply Permutation_app_tail; exact D|].
  assert (Q : zrange_up (Z0 - Z.of_nat h) h ++ zrange_up Z0 h = zrange_up (Z0 - Z.of_nat h) (h + h)); [|rewrite Q; apply Permutation_refl].
  unfold zrange_up. rewrite (seq_app h h 0), (map_app _ (seq 0 h)). cbn [Nat.add]. f_equal.
  clear D. apply (nth_ext _ _ 0%Z 0%Z); [rewrite !map_length, !seq_length; reflexivity|].
  intros i Hi. rewrite map_length, seq_length in Hi.
  rewrite (nth_indep _ 0%Z ((fun i => (Z0 + Z.of_nat i)%Z) 0%nat)) by (rewrite map_length, seq_length; exact Hi).
  rewrite (map_nth (fun i => (Z0 + Z.of_nat i)%Z)).
  rewrite (nth_indep _ 0%Z ((fun i => (Z0 - Z.of_nat h + Z.of_nat i)%Z) 0%nat)) by (rewrite map_length, seq_length; exact Hi).
  rewrite (map_nth (fun i => (Z0 - Z.of_nat h + Z.of_nat i)%Z)). rewrite !seq_nth by exact Hi. lia.
Qed.

Lemma no_hit : forall (w : Z -> Z) (v : Z -> R) c z, w z <> c -> rsum (map (fun z => if (w z =? c)%Z then v z else 0) [z]) = 0.
Proof. intros w v c z H. unfold rsum. cbn. destruct (Z.eqb_spec (w z) c); [contradiction|ring]. Qed.

Lemma zrange_S : forall a h, zrange_up a (S h) = a :: zrange_up (a + 1) h.
Proof. intros. unfold zrange_up. cbn [seq map]. rewrite <- seq_shift, map_map. f_equal; [lia|]. apply map_ext. intros i. lia. Qed.

Lemma window_mirror : forall (f f' : Z -> R) n h Z0 m c, (0 < n)%Z -> (0 <= c < n)%Z ->
  (forall z, f' (m - 1 - z)%Z = f z) -> c <> ((Z0 + Z.of_nat h) mod n)%Z -> c <> ((Z0 - Z.of_nat h) mod n)%Z ->
  rsum (map (fun z => if (wrap_index z n =? (m - 1 - c) mod n)%Z then f' z else 0) (zrange_up (m - 1 - Z0 - Z.of_nat h) (h + h))) =
  rsum (map (fun z => if (wrap_index z n =? c)%Z then f z else 0) (zrange_up (Z0 - Z.of_nat h) (h + h))).
Proof.
  intros f f' n h Z0 m c Hn Hc Hf N1 N2.
  destruct h as [|h0]; [reflexivity|]. set (h := S h0) in *.
  (* the mirrored window, as pixels of the original *)
  assert (P : Permutation (zrange_up (m - 1 - Z0 - Z.of_nat h) (h + h)) (map (fun z => (m - 1 - z)%Z) (zrange_up (Z0 - Z.of_nat h + 1) (h + h)))).
  { pose proof (zrange_mirror (Z0 - Z.of_nat h + 1) (h + h)) as Q.
    apply (Permutation_map (fun z => (z + m)%Z)) in Q. rewrite <- zrange_up_shift, map_map in Q.
    replace (- (Z0 - Z.of_nat h + 1 + Z.of_nat (h + h)) + m)%Z with (m - 1 - Z0 - Z.of_nat h)%Z in Q by lia.
    rewrite (map_ext (fun z => (m - 1 - z)%Z) (fun z => (-1 - z + m)%Z)) by (intros z; lia). exact Q. }
  rewrite (rsum_perm _ _ (Permutation_map _ P)), map_map.
  rewrite (rsum_map_ext _ _ (fun z => if (wrap_index z n =? c)%Z then f z else 0)).
  2:{ intros z _. rewrite Hf. rewrite !wrap_index_mod by assumption.
      assert (E : ((m - 1 - z) mod n =? (m - 1 - c) mod n)%Z = (z mod n =? c)%Z).
      { destruct (Z.eqb_spec (z mod n) c) as [<- | X].
        - apply Z.eqb_eq. rewrite (Zminus_mod (m - 1) z n), (Zminus_mod (m - 1) (z mod n) n), Zmod_mod. reflexivity.
        - apply Z.eqb_neq. intro H. apply X.
          assert (D : ((z - c) mod n = 0)%Z).
          { replace (z - c)%Z with ((m - 1 - c) - (m - 1 - z))%Z by ring. rewrite Zminus_mod, H, Z.sub_diag. apply Zmod_0_l. }
          apply Z.mod_divide in D; [|lia]. destruct D as (q & D). replace z with (c + q * n)%Z by lia.
          rewrite Z_mod_plus_full. apply Z.mod_small. exact Hc. }
      rewrite E. reflexivity. }
  replace (h + h)%nat with (S (h0 + h)) by (unfold h; lia).
  rewrite (zrange_S (Z0 - Z.of_nat h)), (zrange_snoc (Z0 - Z.of_nat h + 1)), map_app, rsum_app.
  rewrite no_hit.
  2:{ rewrite wrap_index_mod by assumption. intro X. apply N1. rewrite <- X. f_equal. unfold h. lia. }
  cbn [map]. unfold rsum at 2. cbn [fold_right]. fold (rsum (map (fun z => if (wrap_index z n =? c)%Z then f z else 0) (zrange_up (Z0 - Z.of_nat h + 1) (h0 + h)))).
  rewrite (wrap_index_mod (Z0 - Z.of_nat h)) by assumption.
  destruct (Z.eqb_spec ((Z0 - Z.of_nat h) mod n) c) as [X|X]; [congruence|]. ring.
Qed.

Lemma px_depth_mirror : forall M su g l g' l' m Z0 j, isometry M -> no_gain su -> tautail (su_line su) <= 0 -> 0 < su_unit su ->
  (forall u a, su_profile su (- u) a = su_profile su u a) -> su_kern su <> Voronoi -> matched su -> (j < su_nbins su)%nat ->
  good_gas su g -> good_gas su g' -> good_line (su_box su) l -> good_line (su_box su) l' ->
  moved M (su_box su) g g' -> moved_line M (su_box su) l l' -> sign M (l_axis l) = (-1)%Z -> 0 < g_temp g -> 0 <= g_dens g ->
  velfac (su_line su) * (su_unit su * IZR (step M (l_axis l))) + boost M (l_axis l) = IZR m * (vbox (su_line su) / INR (su_nbins su)) ->
  IZR Z0 * (vbox (su_line su) / INR (su_nbins su)) < velfac (su_line su) * (su_unit su * IZR (along l g)) + vel_along l g <
    IZR (Z0 + 1) * (vbox (su_line su) / INR (su_nbins su)) ->
  Z.of_nat j <> ((Z0 + Z.of_nat (su_nbins su) / 2) mod Z.of_nat (su_nbins su))%Z ->
  Z.of_nat j <> ((Z0 - Z.of_nat (su_nbins su) / 2) mod Z.of_nat (su_nbins su))%Z ->
  px Depth su l' (image M (su_nbins su) l m j) g' = px Depth su l j g.
Proof.
  intros M su g l g' l' m Z0 j I Hg Hcut Hu Hev Hk Hm Hj G G' Hl Hl' Mg Ml Es Ht Hd E HZ N1 N2.
  pose proof Hm as (Hf & Hv & Hb).
  assert (Hn : (0 < Z.of_nat (su_nbins su))%Z) by lia.
  assert (HN : 0 < INR (su_nbins su)) by (apply lt_0_INR; lia).
  pose proof (d2_moved M su g l g' l' I G G' Hl Hl' Mg Ml) as Ed2.
  destruct Mg as (Eh & Ed & Et & Mg).
  unfold px. rewrite !true_depth by assumption. rewrite Ed2, Eh, Ed. destruct (skips _ _ _ _ _); [reflexivity|].
  set (n := Z.of_nat (su_nbins su)) in *. set (bin := vbox (su_line su) / INR (su_nbins su)) in *.
  assert (Ebin : vbox (su_line su) / IZR n = bin) by (unfold bin, n; rewrite <- INR_IZR_INZ; reflexivity).
  assert (Hbin : 0 < bin) by (apply Rdiv_lt_0_compat; assumption).
  destruct (Mg (l_axis l) (proj1 Hl)) as ((k & Ek) & Ev). rewrite Es in Ek, Ev.
  set (V := velfac (su_line su) * (su_unit su * IZR (along l g)) + vel_along l g) in *.
  assert (EV : velfac (su_line su) * (su_unit su * IZR (along l' g')) + vel_along l' g' = IZR (m + k * n) * bin - V).
  { rewrite along_place, vel_speed, (proj1 Ml), Ek, Ev. unfold V. rewrite along_place, vel_speed.
    rewrite (plus_IZR m), !plus_IZR, !mult_IZR, Rmult_plus_distr_r, <- E.
    assert (Eb : IZR k * IZR n * bin = IZR k * (velfac (su_line su) * (su_unit su * IZR (su_box su)))).
    { rewrite <- Hb. unfold n, bin. rewrite <- INR_IZR_INZ. field. lra. }
    rewrite Eb. ring. }
  assert (F0 : Zfloor (V / bin) = Z0).
  { apply Zfloor_imp. split.
    - apply Rmult_le_reg_r with bin; [exact Hbin|]. replace (V / bin * bin) with V by (field; lra). lra.
    - apply Rmult_lt_reg_r with bin; [exact Hbin|]. replace (V / bin * bin) with V by (field; lra). lra. }
  assert (F1 : Zfloor ((IZR (m + k * n) * bin - V) / bin) = (m + k * n - 1 - Z0)%Z).
  { apply Zfloor_imp. rewrite !minus_IZR, !plus_IZR, !minus_IZR, !plus_IZR in *. split.
    - apply Rmult_le_reg_r with bin; [exact Hbin|]. replace (((IZR m + IZR (k * n)) * bin - V) / bin * bin) with ((IZR m + IZR (k * n)) * bin - V) by (field; lra). lra.
    - apply Rmult_lt_reg_r with bin; [exact Hbin|]. replace (((IZR m + IZR (k * n)) * bin - V) / bin * bin) with ((IZR m + IZR (k * n)) * bin - V) by (field; lra). lra. }
  set (mm := (m + k * n)%Z) in *.
  assert (U : forall z, unit_value su l' g' (mm - 1 - z) = unit_value su l g z).
  { intros z. unfold unit_value. rewrite Ed2, Eh, Et, EV. cbv zeta. fold n V. rewrite Ebin.
    replace (IZR (mm - 1 - z) * bin - (IZR mm * bin - V)) with (- (IZR z * bin - V + bin)) by (rewrite !minus_IZR; ring).
    rewrite outer_mirror; [reflexivity| |exact Hbin|exact Hev].
    apply Rmult_lt_0_compat; [apply Hg|apply sqrt_lt_R0; exact Ht]. }
  assert (Gh : (0 < p_h (g_part g))%Z) by apply G.
  assert (V1 : forall z, tautail (su_line su) <= g_dens g * unit_value su l g z).
  { intros z. pose proof (unit_value_nonneg su l g z Hg Hk ltac:(lia) Hu Ht Gh) as X.
    assert (0 <= g_dens g * unit_value su l g z) by (apply Rmult_le_pos; assumption). lra. }
  assert (V2 : forall z, tautail (su_line su) <= g_dens g * unit_value su l' g' z).
  { intros z. replace z with (mm - 1 - (mm - 1 - z))%Z by ring. rewrite U. apply V1. }
  rewrite !(tau_loop_all _ _ _ _ V1), !(tau_loop_all _ _ _ _ V2). rewrite <- !map_app.
  unfold tau_window. rewrite EV. cbv zeta. fold n V. rewrite Ebin, F0, F1. cbn [fst snd].
  rewrite !at_cell_map. set (h := Z.to_nat (Z.quot n 2)).
  assert (Eh2 : Z.of_nat h = (n / 2)%Z).
  { unfold h. rewrite Zquot.Zquot_Zdiv_pos by lia. rewrite Z2Nat.id; [reflexivity|]. apply Z.div_pos; lia. }
  rewrite (rsum_perm _ _ (Permutation_map _ (zrange_both Z0 h))), (rsum_perm _ _ (Permutation_map _ (zrange_both (mm - 1 - Z0) h))).
  unfold image. rewrite Es. cbn [Z.eqb]. rewrite Z2Nat.id by (apply Z.mod_pos_bound; exact Hn). fold n.
  replace ((m - 1 - Z.of_nat j) mod n)%Z with ((mm - 1 - Z.of_nat j) mod n)%Z
    by (unfold mm; replace (m + k * n - 1 - Z.of_nat j)%Z with (m - 1 - Z.of_nat j + k * n)%Z by ring; apply Z_mod_plus_full).
  apply (window_mirror (fun z => g_dens g * unit_value su l g z) (fun z => g_dens g * unit_value su l' g' z)).
  - exact Hn.
  - unfold n. lia.
  - intros z. rewrite U. reflexivity.
  - rewrite Eh2. exact N1.
  - rewrite Eh2. exact N2.
Qed.

Lemma single_px : forall qu su l g arr j, (0 < su_nbins su)%nat -> good_gas su g -> good_line (su_box su) l -> single qu su l g arr ->
  nth j arr 0 = px qu su l j g.
Proof.
  intros qu su l g arr j Hn Hg Hl Hs. destruct (single_true qu su l g Hn Hg Hl) as (a & Sa & _ & N).
  rewrite (single_unique _ _ _ _ _ _ Hs Sa). apply N.
Qed.

Lemma C105_mirror_aux : forall M su g l g' l' m Z0 a a', isometry M -> no_gain su -> tautail (su_line su) <= 0 -> 0 < su_unit su ->
  (forall u c, su_profile su (- u) c = su_profile su u c) -> su_kern su <> Voronoi -> matched su ->
  good_gas su g -> good_gas su g' -> good_line (su_box su) l -> good_line (su_box su) l' ->
  moved M (su_box su) g g' -> moved_line M (su_box su) l l' -> sign M (l_axis l) = (-1)%Z -> 0 < g_temp g -> 0 <= g_dens g ->
  velfac (su_line su) * (su_unit su * IZR (step M (l_axis l))) + boost M (l_axis l) = IZR m * (vbox (su_line su) / INR (su_nbins su)) ->
  IZR Z0 * (vbox (su_line su) / INR (su_nbins su)) < velfac (su_line su) * (su_unit su * IZR (along l g)) + vel_along l g <
    IZR (Z0 + 1) * (vbox (su_line su) / INR (su_nbins su)) ->
  single Depth su l g a -> single Depth su l' g' a' ->
  forall j, (j < su_nbins su)%nat ->
  Z.of_nat j <> ((Z0 + Z.of_nat (su_nbins su) / 2) mod Z.of_nat (su_nbins su))%Z ->
  Z.of_nat j <> ((Z0 - Z.of_nat (su_nbins su) / 2) mod Z.of_nat (su_nbins su))%Z ->
  nth (image M (su_nbins su) l m j) a' 0 = nth j a 0.
Proof.
  intros M su g l g' l' m Z0 a a' I Hg Hcut Hu Hev Hk Hm G G' Hl Hl' Mg Ml Es Ht Hd E HZ Sa Sa' j Hj N1 N2.
  rewrite (single_px Depth su l g a j), (single_px Depth su l' g' a') by (assumption || lia).
  apply (px_depth_mirror M su g l g' l' m Z0 j); assumption.
Qed.
