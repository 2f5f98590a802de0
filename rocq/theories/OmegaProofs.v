(** Proofs about path lengths and the matter density in absorbers. *)
From Coq Require Import ZArith List Reals Arith Lra Lia Bool.
From Verif Require Import AbsorptionSpec AbsorptionProofs SightlineModel FluxModel FluxSpec FluxProofs FluxProofs2 FluxProofs3.
From Verif Require Import CddfModel CddfSpec CddfProofs ObserverModel OmegaModel OmegaSpec.
Import ListNotations.
Local Open Scope R_scope.

(** ** The trapezium rule on a list of points *)

Lemma trapz_maps : forall (y x : nat -> R) n a,
  trapz_xy (map y (seq a (S n))) (map x (seq a (S n))) =
  rsum (map (fun i => (x (S i) - x i) * (y i + y (S i)) / 2) (seq a n)).
Proof.
  intros y x n. induction n as [|n IH]; intros a; [reflexivity|].
  change (seq a (S (S n))) with (a :: seq (S a) (S n)). change (seq a (S n)) with (a :: seq (S a) n).
  cbn [map]. unfold rsum. cbn [fold_right]. fold (rsum (map (fun i => (x (S i) - x i) * (y i + y (S i)) / 2) (seq (S a) n))).
  rewrite <- IH. change (seq (S a) (S n)) with (S a :: seq (S (S a)) n). reflexivity.
Qed.

Definition weight_at (x : nat -> R) (n i : nat) : R :=
  ((if (S i <? n)%nat then x (S i) - x i else 0) + (if (0 <? i)%nat then x i - x (pred i) else 0)) / 2.

Lemma trapz_weights : forall (y x : nat -> R) n,
  trapz_xy (map y (seq 0 n)) (map x (seq 0 n)) = rsum (map (fun i => y i * weight_at x n i) (seq 0 n)).
Proof.
  intros y x [|n]; [reflexivity|]. rewrite trapz_maps.
  set (d := fun i => (x (S i) - x i) / 2).
  rewrite (rsum_map_ext _ _ (fun i => y i * d i + y (S i) * d i)) by (intros; unfold d; field).
  rewrite rsum_map_plus.
  rewrite (rsum_map_ext _ (fun i => y i * weight_at x (S n) i)
    (fun i => y i * (if (S i <? S n)%nat then d i else 0) + y i * (if (0 <? i)%nat then d (pred i) else 0))).
  2:{ intros i _. unfold weight_at, d. destruct (S i <? S n)%nat; destruct (0 <? i)%nat eqn:E; try field.
      - apply Nat.ltb_lt in E. rewrite Nat.succ_pred by lia. field.
      - apply Nat.ltb_lt in E. rewrite Nat.succ_pred by lia. field. }
  rewrite rsum_map_plus. f_equal.
  - rewrite seq_S, map_app, rsum_app. cbn [plus map]. rewrite Nat.ltb_irrefl. unfold rsum at 3. cbn [fold_right].
    replace (y n * 0 + 0) with 0 by ring. rewrite Rplus_0_r. apply rsum_map_ext. intros i Hi. apply in_seq in Hi.
    destruct (Nat.ltb_spec (S i) (S n)); [reflexivity|lia].
  - change (seq 0 (S n)) with (0%nat :: seq 1 n). cbn [map]. unfold rsum at 2. cbn [fold_right].
    fold (rsum (map (fun i => y i * (if (0 <? i)%nat then d (pred i) else 0)) (seq 1 n))).
    rewrite Nat.ltb_irrefl, Rmult_0_r, Rplus_0_l. rewrite <- seq_shift, map_map. apply rsum_map_ext. intros i _.
    reflexivity.
Qed.

(** ** From counts per bin to a sum over absorbers *)

Lemma counts_to_absorbers : forall (P : nat -> R -> Prop) (A : nat -> R) n,
  (forall i x, {P i x} + {~ P i x}) ->
  (forall i j x, (i < n)%nat -> (j < n)%nat -> P i x -> P j x -> i = j) ->
  forall l v, (forall i, (i < n)%nat -> exists m, number (P i) l m /\ v i = INR m) ->
  exists ws, Forall2 (fun x w => (exists i, (i < n)%nat /\ P i x /\ w = A i) \/
                                 ((forall i, (i < n)%nat -> ~ P i x) /\ w = 0)) l ws /\
    rsum (map (fun i => v i * A i) (seq 0 n)) = rsum ws.
Proof.
  intros P A n dec uniq l. induction l as [|x l IH]; intros v Hv.
  - exists []. split; [constructor|]. apply rsum_zero. intros y Hy. apply in_map_iff in Hy. destruct Hy as (i & <- & Hi).
    apply in_seq in Hi. destruct (Hv i ltac:(lia)) as (m & Hm & ->). inversion Hm; subst. cbn. ring.
  - destruct (IH (fun i => v i - if dec i x then 1 else 0)) as (ws & Hw & Es).
    { intros i Hi. destruct (Hv i Hi) as (m & Hm & Ev). inversion Hm as [|? ? m' Px Hm'|? ? m' Px Hm']; subst.
      - exists m'. split; [assumption|]. destruct (dec i x); [|contradiction]. rewrite Ev, S_INR. ring.
      - exists m. split; [assumption|]. destruct (dec i x); [contradiction|]. rewrite Ev. ring. }
    assert (Sp : rsum (map (fun i => v i * A i) (seq 0 n)) = rsum ws + rsum (map (fun i => if dec i x then A i else 0) (seq 0 n))).
    { rewrite <- Es, <- rsum_map_plus. apply rsum_map_ext. intros i _. destruct (dec i x); ring. }
    assert (D : (exists i, (i < n)%nat /\ P i x) \/ (forall i, (i < n)%nat -> ~ P i x)).
    { clear - dec. induction n as [|n IHn]; [right; lia|]. destruct IHn as [(i & Hi & Px)|No].
      - left. exists i. split; [lia|assumption].
      - destruct (dec n x); [left; exists n; split; [lia|assumption]|]. right. intros i Hi.
        destruct (Nat.eq_dec i n) as [->|]; [assumption|apply No; lia]. }
    destruct D as [(i & Hi & Px)|No].
    + exists (A i :: ws). split; [constructor; [left; exists i; auto|assumption]|].
      rewrite Sp. rewrite (rsum_map_ext _ _ (fun l => if Nat.eqb i l then A i else 0)).
      * rewrite rsum_single by assumption. unfold rsum at 2. cbn [fold_right]. fold (rsum ws). ring.
      * intros j Hj. apply in_seq in Hj. destruct (Nat.eqb_spec i j) as [->|Hn].
        -- destruct (dec j x); [reflexivity|contradiction].
        -- destruct (dec j x) as [Pj|]; [|reflexivity]. exfalso. apply Hn. apply (uniq i j x); auto; lia.
    + exists (0 :: ws). split; [constructor; [right; auto|assumption]|].
      rewrite Sp. rewrite (rsum_map_ext _ _ (fun _ => 0)).
      * rewrite (rsum_zero (map (fun _ : nat => 0) (seq 0 n))).
        -- unfold rsum at 2. cbn [fold_right]. fold (rsum ws). ring.
        -- intros y Hy. apply in_map_iff in Hy. destruct Hy as (? & <- & _). reflexivity.
      * intros j Hj. apply in_seq in Hj. destruct (dec j x) as [Pj|]; [|reflexivity]. exfalso. apply (No j); [lia|assumption].
Qed.

(** ** The bins *)

Lemma ln10_pos : 0 < ln 10.
Proof. rewrite <- ln_1. apply ln_increasing; lra. Qed.

Lemma edge_eq : forall thresh i, 0 < thresh -> bin_edge (log10 thresh) (2 / 10) i = dla_edge thresh i.
Proof.
  intros thresh i H. unfold bin_edge, dla_edge. rewrite Rpower_plus. f_equal.
  - unfold Rpower, log10. pose proof ln10_pos. replace (ln thresh / ln 10 * ln 10) with (ln thresh) by (field; lra).
    apply exp_ln. assumption.
  - f_equal. field.
Qed.

Definition ratio : R := Rpower 10 (/ 5).

Lemma ratio_pos : 0 < ratio.
Proof. unfold ratio, Rpower. apply exp_pos. Qed.

Lemma ratio_gt1 : 1 < ratio.
Proof.
  unfold ratio, Rpower. rewrite <- exp_0. apply exp_increasing. apply Rmult_lt_0_compat; [lra|apply ln10_pos].
Qed.

Lemma edge_succ : forall thresh i, dla_edge thresh (S i) = dla_edge thresh i * ratio.
Proof.
  intros. unfold dla_edge, ratio. rewrite Rmult_assoc, <- Rpower_plus. f_equal. f_equal. rewrite S_INR. field.
Qed.

Lemma edge_pos : forall thresh i, 0 < thresh -> 0 < dla_edge thresh i.
Proof. intros. unfold dla_edge. apply Rmult_lt_0_compat; [assumption|]. unfold Rpower. apply exp_pos. Qed.

Lemma edge_zero : forall thresh, dla_edge thresh 0 = thresh.
Proof. intros. unfold dla_edge. cbn [INR]. replace (0 / 5) with 0 by field. rewrite Rpower_O by lra. ring. Qed.

Lemma edge_lt : forall thresh i j, 0 < thresh -> (i < j)%nat -> dla_edge thresh i < dla_edge thresh j.
Proof.
  intros thresh i j H L. induction L as [|j L IH].
  - rewrite edge_succ. pose proof (edge_pos thresh i H). pose proof ratio_gt1. nra.
  - rewrite edge_succ. pose proof (edge_pos thresh j H). pose proof ratio_gt1. nra.
Qed.

Lemma edge_le : forall thresh i j, 0 < thresh -> (i <= j)%nat -> dla_edge thresh i <= dla_edge thresh j.
Proof.
  intros thresh i j H L. apply Nat.lt_eq_cases in L. destruct L as [L| ->]; [|lra].
  apply Rlt_le, edge_lt; assumption.
Qed.

Lemma bin_dec : forall thresh n i x, {dla_bin thresh n i x} + {~ dla_bin thresh n i x}.
Proof.
  intros thresh n i x. unfold dla_bin. destruct (Rle_dec (dla_edge thresh i) x); [|right; tauto].
  destruct (Rlt_dec x (dla_edge thresh (S i))); [left; tauto|].
  destruct (Nat.eq_dec (S i) n); [|right; intros (_ & [H|(H & _)]); contradiction].
  destruct (Req_EM_T x (dla_edge thresh n)); [left; tauto|right; intros (_ & [?|(_ & ?)]); contradiction].
Qed.

Lemma bin_unique : forall thresh n i j x, 0 < thresh -> (i < n)%nat -> (j < n)%nat ->
  dla_bin thresh n i x -> dla_bin thresh n j x -> i = j.
Proof.
  intros thresh n i j x H Hi Hj.
  assert (G : forall i j, (i < j)%nat -> (j < n)%nat -> dla_bin thresh n i x -> dla_bin thresh n j x -> False).
  { clear i j Hi Hj. intros i j L Hj (A1 & [A2|(A2 & A3)]) (B1 & _); [|lia].
    pose proof (edge_le thresh (S i) j H ltac:(lia)). lra. }
  intros P Q. destruct (lt_eq_lt_dec i j) as [[L|E]|L]; [exfalso; eauto|assumption|exfalso; eauto].
Qed.

Lemma bin_exists : forall thresh n x, 0 < thresh -> (0 < n)%nat -> thresh <= x <= dla_edge thresh n ->
  exists i, (i < n)%nat /\ dla_bin thresh n i x.
Proof.
  intros thresh n x H Hn Hx.
  apply (inside_some (dla_edge thresh) n); [intros; apply edge_lt; [assumption|lia]|assumption|].
  rewrite edge_zero. assumption.
Qed.

Lemma weight_share : forall thresh n i, 0 < thresh -> (i < n)%nat ->
  dla_centre thresh i * weight_at (dla_centre thresh) n i / (dla_edge thresh (S i) - dla_edge thresh i) =
  bin_share n i * dla_centre thresh i.
Proof.
  intros thresh n i H Hi. unfold weight_at, bin_share. fold ratio.
  pose proof ratio_gt1 as Hr. pose proof (edge_pos thresh i H) as He.
  assert (C1 : dla_centre thresh (S i) = dla_centre thresh i * ratio) by (unfold dla_centre; rewrite !edge_succ; field).
  assert (C0 : (0 < i)%nat -> dla_centre thresh (pred i) = dla_centre thresh i / ratio).
  { intros Hi0. destruct i as [|i]; [lia|]. cbn [pred]. unfold dla_centre. rewrite !edge_succ. field. lra. }
  assert (Ce : dla_centre thresh i = dla_edge thresh i * (1 + ratio) / 2) by (unfold dla_centre; rewrite edge_succ; field).
  rewrite C1. replace (if (0 <? i)%nat then dla_centre thresh i - dla_centre thresh (pred i) else 0) with
    (if (0 <? i)%nat then dla_centre thresh i - dla_centre thresh i / ratio else 0).
  2:{ destruct (Nat.ltb_spec 0 i); [rewrite C0 by assumption|]; reflexivity. }
  rewrite Ce, edge_succ. destruct (S i <? n)%nat, (0 <? i)%nat; field; repeat split; nra.
Qed.

(** ** C59 *)

Lemma rho_crit_pos : forall h g u, 0 < h -> 0 < g -> 0 < u -> 0 < rho_crit h g u.
Proof.
  intros h g u Hh Hg Hu. unfold rho_crit. pose proof PI_RGT_0. apply Rdiv_lt_0_compat.
  - apply Rmult_lt_0_compat; [lra|]. apply pow_lt. apply Rmult_lt_0_compat; assumption.
  - apply Rmult_lt_0_compat; [lra|assumption].
Qed.

Lemma path_X_pos : forall S, proper S -> 0 < path S true.
Proof.
  intros S (H1 & H2 & H3 & H4 & H5 & H6 & H7). unfold path, absorption_distance.
  apply Rmult_lt_0_compat; [|apply pow_lt; lra]. apply Rmult_lt_0_compat; [|assumption].
  apply Rmult_lt_0_compat; [|assumption]. apply Rdiv_lt_0_compat; assumption.
Qed.

Lemma log10_lt : forall a b, 0 < a -> a < b -> log10 a < log10 b.
Proof.
  intros a b Ha H. unfold log10, Rdiv. apply Rmult_lt_compat_r; [apply Rinv_0_lt_compat, ln10_pos|].
  apply ln_increasing; assumption.
Qed.

Lemma edge_log : forall thresh up i, 0 < thresh -> 0 < up ->
  (log10 thresh + INR i * (2 / 10) < log10 up -> dla_edge thresh i < up) /\
  (log10 up <= log10 thresh + INR i * (2 / 10) -> up <= dla_edge thresh i).
Proof.
  intros thresh up i Ht Hu. rewrite <- edge_eq by assumption. unfold bin_edge.
  assert (E : Rpower 10 (log10 up) = up).
  { unfold Rpower, log10. pose proof ln10_pos. replace (ln up / ln 10 * ln 10) with (ln up) by (field; lra).
    apply exp_ln. assumption. }
  split; intros H.
  - rewrite <- E. apply Rpower_lt; [lra|assumption].
  - rewrite <- E. apply Rle_Rpower; [lra|assumption].
Qed.

Lemma C59_absorbers_aux : forall S mass discarded thresh up close dvbin rho,
  proper S -> 0 < thresh -> thresh < up -> rho <> [] ->
  exists n ws, dla_edge thresh n < up <= dla_edge thresh (Datatypes.S n) /\
    Forall2 (counts_for thresh n) (map rsum rho) ws /\
    omega_abs_cddf S mass discarded thresh up close dvbin rho =
    mass * (rsum ws / INR (length rho + discarded)) / (1 + s_red S) ^ 2 / (s_box S * u_length S / s_hubble S) /
      rho_crit (u_h100 S) (u_grav S) (s_hubble S).
Proof.
  intros S mass discarded thresh up close dvbin rho HS Ht Hu Hr.
  pose proof (path_X_pos S HS) as HX.
  destruct (C26_counts_aux (log10 thresh) (log10 up) (2 / 10) (path S true) discarded true close dvbin rho
    ltac:(lra) (log10_lt _ _ Ht Hu) HX Hr) as (a & n & center & f & Ha & Hn & E & Lc & Lf & Hb & _).
  cbn [absorbers_of] in Ha. subst a.
  assert (Hn' : dla_edge thresh n < up <= dla_edge thresh (Datatypes.S n)).
  { destruct (edge_log thresh up n Ht ltac:(lra)) as (L1 & _).
    destruct (edge_log thresh up (Datatypes.S n) Ht ltac:(lra)) as (_ & L2). split; [apply L1|apply L2]; apply Hn. }
  set (T := INR (length rho + discarded)) in *.
  assert (HT : 0 < T) by (apply lt_0_INR; destruct rho; [congruence|cbn; lia]).
  destruct (counts_to_absorbers (dla_bin thresh n) (fun i => bin_share n i * dla_centre thresh i) n
     (bin_dec thresh n) (fun i j x Hi Hj => bin_unique thresh n i j x Ht Hi Hj) (map rsum rho)
     (fun i => nth i f 0 * (dla_edge thresh (Datatypes.S i) - dla_edge thresh i) * (path S true * T))) as (ws & Hw & Es).
  { intros i Hi. destruct (Hb i Hi) as (_ & m & Hm & Em). rewrite !edge_eq in Em by assumption. exists m.
    split; [|exact Em]. unfold falls_into in Hm. unfold dla_bin. rewrite !edge_eq in Hm by assumption. exact Hm. }
  exists n, ws. split; [assumption|]. split; [exact Hw|].
  unfold omega_abs_cddf, cddf. rewrite E.
  assert (Ef : f = map (fun i => nth i f 0) (seq 0 n)).
  { rewrite <- Lf. clear. induction f as [|y f IH]; [reflexivity|]. cbn [length seq map]. f_equal.
    rewrite <- seq_shift, map_map. exact IH. }
  assert (Ec : center = map (dla_centre thresh) (seq 0 n)).
  { apply (nth_ext _ _ 0 0); [rewrite map_length, seq_length; assumption|]. rewrite Lc. intros i Hi.
    rewrite map_seq_nth by assumption. destruct (Hb i Hi) as (-> & _). rewrite !edge_eq by assumption. reflexivity. }
  rewrite Ec. rewrite Ef at 1. rewrite combine_maps, map_map. cbn [fst snd]. rewrite trapz_weights.
  assert (Tz : rsum (map (fun i => nth i f 0 * dla_centre thresh i * weight_at (dla_centre thresh) n i) (seq 0 n)) =
    rsum ws / (path S true * T)).
  { rewrite <- Es. unfold Rdiv. rewrite Rmult_comm, <- rsum_map_scal. apply rsum_map_ext. intros i Hi. apply in_seq in Hi.
    rewrite <- weight_share by (try assumption; lia).
    pose proof (edge_lt thresh i (Datatypes.S i) Ht ltac:(lia)). field. split; [lra|]. split; lra. }
  rewrite Tz. unfold path, absorption_distance.
  pose proof (rho_crit_pos (u_h100 S) (u_grav S) (s_hubble S)) as HR.
  destruct HS as (H1 & H2 & H3 & H4 & H5 & H6 & H7). specialize (HR H1 H4 H7).
  field. repeat split; lra.
Qed.

Lemma ratio_bounds : 1.58 < ratio < 1.585.
Proof.
  assert (E : ratio ^ 5 = 10).
  { unfold ratio. rewrite <- Rpower_pow by (unfold Rpower; apply exp_pos). rewrite Rpower_mult.
    replace (/ 5 * INR 5) with 1 by (simpl; field). apply Rpower_1. lra. }
  pose proof ratio_pos as P. split; apply Rnot_le_lt; intros H.
  - pose proof (pow_incr ratio 1.58 5 ltac:(lra)) as Q. rewrite E in Q. simpl in Q. lra.
  - pose proof (pow_incr 1.585 ratio 5 ltac:(lra)) as Q. rewrite E in Q. simpl in Q. lra.
Qed.

Lemma factor_bounds : forall r, 1.58 < r < 1.585 ->
  0.85 <= (1 + r) ^ 2 / (4 * r) * ((1 + r) / (2 * r)) /\ (1 + r) ^ 2 / (4 * r) * ((1 + r) / 2) <= 1.37 /\
  1.05 < (1 + r) ^ 2 / (4 * r).
Proof.
  intros r (L & U). split; [|split].
  - apply (Rmult_le_reg_r (8 * r ^ 2)); [nra|].
    replace ((1 + r) ^ 2 / (4 * r) * ((1 + r) / (2 * r)) * (8 * r ^ 2)) with ((1 + r) ^ 3) by (field; lra). nra.
  - apply (Rmult_le_reg_r (8 * r)); [nra|].
    replace ((1 + r) ^ 2 / (4 * r) * ((1 + r) / 2) * (8 * r)) with ((1 + r) ^ 3) by (field; lra). nra.
  - apply (Rmult_lt_reg_r (4 * r)); [nra|].
    replace ((1 + r) ^ 2 / (4 * r) * (4 * r)) with ((1 + r) ^ 2) by (field; lra). nra.
Qed.

Lemma rsum_cons : forall a l, rsum (a :: l) = a + rsum l.
Proof. reflexivity. Qed.

Lemma direct_value : forall S mass discarded thresh up rho, proper S -> rho <> [] ->
  omega_direct S mass discarded thresh up rho =
  Some (mass * (rsum (filter (fun x => if Rlt_dec thresh x then if Rlt_dec x up then true else false else false) (map rsum rho)) /
               INR (length rho + discarded)) / (1 + s_red S) ^ 2 / (s_box S * u_length S / s_hubble S) /
        rho_crit (u_h100 S) (u_grav S) (s_hubble S)).
Proof.
  intros S mass discarded thresh up rho (H1 & H2 & H3 & H4 & H5 & H6 & H7) Hr. unfold omega_direct, omega_abs.
  rewrite C56_density_aux; [reflexivity| |lra|assumption].
  apply Rgt_not_eq. apply Rdiv_lt_0_compat; [|assumption]. apply Rmult_lt_0_compat; assumption.
Qed.

Lemma interior_weight : forall thresh n x w, 0 < thresh -> (2 <= n)%nat ->
  dla_edge thresh 1 <= x < dla_edge thresh (n - 1) -> counts_for thresh n x w -> 0.85 * x <= w <= 1.37 * x.
Proof.
  intros thresh n x w Ht Hn (Hlo & Hhi) C.
  destruct (bin_exists thresh n x Ht ltac:(lia)) as (i & Hi & Hb).
  { pose proof (edge_le thresh 0 1 Ht ltac:(lia)) as E0. rewrite edge_zero in E0.
    pose proof (edge_le thresh (n - 1) n Ht ltac:(lia)). lra. }
  destruct C as [(j & Hj & Hbj & ->)|(No & _)]; [|exfalso; apply (No i Hi Hb)].
  assert (j = i) as -> by (apply (bin_unique thresh n j i x); assumption).
  assert (i0 : (0 < i)%nat).
  { destruct i; [|lia]. exfalso. destruct Hb as (_ & [B|(B & _)]); [lra|lia]. }
  assert (i1 : (S i < n)%nat).
  { destruct (Nat.eq_dec (S i) n) as [E|]; [|lia]. exfalso. destruct Hb as (B & _).
    replace (n - 1)%nat with i in Hhi by lia. lra. }
  assert (Bx : dla_edge thresh i <= x <= dla_edge thresh i * ratio).
  { destruct Hb as (B & [B2|(B2 & _)]); [|lia]. rewrite edge_succ in B2. lra. }
  unfold bin_share. fold ratio. rewrite (proj2 (Nat.ltb_lt (S i) n) i1), (proj2 (Nat.ltb_lt 0 i) i0).
  pose proof ratio_bounds as Rb. destruct (factor_bounds _ Rb) as (F1 & F2 & _).
  assert (Ce : dla_centre thresh i = dla_edge thresh i * ((1 + ratio) / 2)) by (unfold dla_centre; rewrite edge_succ; field).
  pose proof (edge_pos thresh i Ht) as He. rewrite Ce. set (e := dla_edge thresh i) in *. set (r := ratio) in *.
  replace ((1 + r) / 4 * (1 + / r) * (e * ((1 + r) / 2))) with (e * ((1 + r) ^ 2 / (4 * r) * ((1 + r) / 2))) by (field; lra).
  split.
  - apply Rle_trans with (0.85 * (e * r)); [lra|].
    replace (e * ((1 + r) ^ 2 / (4 * r) * ((1 + r) / 2))) with ((1 + r) ^ 2 / (4 * r) * ((1 + r) / (2 * r)) * (e * r)) by (field; lra).
    apply Rmult_le_compat_r; [nra|assumption].
  - apply Rle_trans with (e * 1.37); [apply Rmult_le_compat_l; lra|lra].
Qed.

Lemma outside_weight : forall thresh up n x w, 0 < thresh -> dla_edge thresh n < up -> ~ (thresh <= x < up) ->
  counts_for thresh n x w -> w = 0.
Proof.
  intros thresh up n x w Ht Hu Hx [(i & Hi & (B1 & B2) & _)|(_ & H)]; [|assumption]. exfalso. apply Hx. split.
  - pose proof (edge_le thresh 0 i Ht ltac:(lia)) as E. rewrite edge_zero in E. lra.
  - destruct B2 as [B2|(_ & ->)]; [|assumption]. pose proof (edge_le thresh (S i) n Ht ltac:(lia)). lra.
Qed.

Lemma scale_down : forall mass T z len rc x y, 0 <= mass -> 0 < T -> 0 < z -> 0 < len -> 0 < rc -> x <= y ->
  mass * (x / T) / z / len / rc <= mass * (y / T) / z / len / rc.
Proof.
  intros mass T z len rc x y Hm HT Hz Hl Hrc H.
  assert (I : forall a, 0 < a -> 0 <= / a) by (intros a Ha; apply Rlt_le, Rinv_0_lt_compat; assumption).
  unfold Rdiv. repeat (apply Rmult_le_compat_r; [apply I; assumption|]). apply Rmult_le_compat_l; [assumption|].
  apply Rmult_le_compat_r; [apply I; assumption|assumption].
Qed.

Lemma C59_within_aux : forall S mass discarded thresh up close dvbin rho n,
  proper S -> 0 <= mass -> 0 < thresh -> rho <> [] -> (2 <= n)%nat ->
  dla_edge thresh n < up <= dla_edge thresh (Datatypes.S n) ->
  (forall row, In row rho -> thresh <= rsum row < up ->
     dla_edge thresh 1 <= rsum row < dla_edge thresh (n - 1)) ->
  exists om, omega_direct S mass discarded thresh up rho = Some om /\
    0.85 * om <= omega_abs_cddf S mass discarded thresh up close dvbin rho <= 1.37 * om.
Proof.
  intros S mass discarded thresh up close dvbin rho n HS Hm Ht Hr Hn Hb Hin.
  assert (Hu : thresh < up).
  { pose proof (edge_le thresh 0 n Ht ltac:(lia)) as E. rewrite edge_zero in E. lra. }
  destruct (C59_absorbers_aux S mass discarded thresh up close dvbin rho HS Ht Hu Hr) as (n' & ws & Hb' & Hw & E).
  assert (n' = n) as ->.
  { destruct (lt_eq_lt_dec n' n) as [[L|Eq]|L]; [exfalso|assumption|exfalso].
    - pose proof (edge_le thresh (Datatypes.S n') n Ht ltac:(lia)). lra.
    - pose proof (edge_le thresh (Datatypes.S n) n' Ht ltac:(lia)). lra. }
  rewrite (direct_value S mass discarded thresh up rho HS Hr). eexists. split; [reflexivity|]. rewrite E.
  set (sel := filter _ _).
  assert (B : 0.85 * rsum sel <= rsum ws <= 1.37 * rsum sel).
  { assert (Hin' : forall x, In x (map rsum rho) -> thresh <= x < up -> dla_edge thresh 1 <= x < dla_edge thresh (n - 1)).
    { intros x Hx. apply in_map_iff in Hx. destruct Hx as (row & <- & Hrow). apply Hin. assumption. }
    unfold sel. clear - Hw Hin' Ht Hn Hb. revert ws Hw Hin'. generalize (map rsum rho). intros l.
    induction l as [|x l IH]; intros ws Hw Hin'; inversion Hw as [|? w ? ws' Hx Hw']; subst; cbn [filter].
    - unfold rsum. cbn [fold_right]. lra.
    - specialize (IH ws' Hw' (fun y Hy => Hin' y (or_intror Hy))).
      assert (W : (thresh < x < up /\ 0.85 * x <= w <= 1.37 * x) \/ (~ (thresh < x /\ x < up) /\ w = 0)).
      { destruct (Rle_dec thresh x) as [A|A].
        - destruct (Rlt_dec x up) as [A'|A'].
          + left. pose proof (Hin' x (or_introl eq_refl) (conj A A')) as Hx'.
            split; [|apply (interior_weight thresh n); assumption]. split; [|assumption].
            pose proof (edge_lt thresh 0 1 Ht ltac:(lia)) as E0. rewrite edge_zero in E0. lra.
          + right. split; [lra|]. apply (outside_weight thresh up n x); [assumption|lra|lra|assumption].
        - right. split; [lra|]. apply (outside_weight thresh up n x); [assumption|lra|lra|assumption]. }
      destruct W as [(W1 & W2)|(W1 & ->)].
      + destruct (Rlt_dec thresh x); [|lra]. destruct (Rlt_dec x up); [|lra]. rewrite !rsum_cons. lra.
      + rewrite !rsum_cons. destruct (Rlt_dec thresh x); [destruct (Rlt_dec x up); [lra|]|]; lra. }
  pose proof (rho_crit_pos (u_h100 S) (u_grav S) (s_hubble S)) as HR.
  destruct HS as (H1 & H2 & H3 & H4 & H5 & H6 & H7). specialize (HR H1 H4 H7).
  assert (HT : 0 < INR (length rho + discarded)) by (apply lt_0_INR; destruct rho; [congruence|cbn; lia]).
  assert (HL : 0 < s_box S * u_length S / s_hubble S) by (apply Rdiv_lt_0_compat; [apply Rmult_lt_0_compat|]; assumption).
  assert (HZ : 0 < (1 + s_red S) ^ 2) by (apply pow_lt; lra).
  set (T := INR _) in *. set (len := s_box S * u_length S / s_hubble S) in *. set (z := (1 + s_red S) ^ 2) in *.
  set (rc := rho_crit _ _ _) in *. split.
  - replace (0.85 * (mass * (rsum sel / T) / z / len / rc)) with (mass * ((0.85 * rsum sel) / T) / z / len / rc) by (field; lra).
    apply scale_down; try assumption. lra.
  - replace (1.37 * (mass * (rsum sel / T) / z / len / rc)) with (mass * ((1.37 * rsum sel) / T) / z / len / rc) by (field; lra).
    apply scale_down; try assumption. lra.
Qed.

(** One absorber in the middle of an inner bin. *)
Lemma C59_centre_aux : forall S mass thresh up close dvbin n i,
  proper S -> 0 < mass -> 0 < thresh -> dla_edge thresh n < up <= dla_edge thresh (Datatypes.S n) ->
  (0 < i)%nat -> (i < n - 1)%nat ->
  exists om, omega_direct S mass 0 thresh up [[dla_centre thresh i]] = Some om /\ 0 < om /\
    1.05 * om < omega_abs_cddf S mass 0 thresh up close dvbin [[dla_centre thresh i]].
Proof.
  intros S mass thresh up close dvbin n i HS Hm Ht Hb Hi0 Hi1.
  assert (Hu : thresh < up).
  { pose proof (edge_le thresh 0 n Ht ltac:(lia)) as E. rewrite edge_zero in E. lra. }
  set (x := dla_centre thresh i). assert (Hne : [[x]] <> []) by discriminate.
  destruct (C59_absorbers_aux S mass 0 thresh up close dvbin [[x]] HS Ht Hu Hne) as (n' & ws & Hb' & Hw & E).
  assert (n' = n) as ->.
  { destruct (lt_eq_lt_dec n' n) as [[L|Eq]|L]; [exfalso|assumption|exfalso].
    - pose proof (edge_le thresh (Datatypes.S n') n Ht ltac:(lia)). lra.
    - pose proof (edge_le thresh (Datatypes.S n) n' Ht ltac:(lia)). lra. }
  rewrite (direct_value S mass 0 thresh up [[x]] HS Hne). eexists. split; [reflexivity|]. rewrite E.
  pose proof (edge_pos thresh i Ht) as He. pose proof ratio_gt1 as Hr1.
  assert (Ex : x = dla_edge thresh i * (1 + ratio) / 2) by (unfold x, dla_centre; rewrite edge_succ; field).
  assert (Bx : dla_edge thresh i < x < dla_edge thresh (Datatypes.S i)) by (rewrite edge_succ; nra).
  assert (Lx : thresh < x < up).
  { pose proof (edge_le thresh 0 i Ht ltac:(lia)) as E0. rewrite edge_zero in E0.
    pose proof (edge_le thresh (Datatypes.S i) n Ht ltac:(lia)). lra. }
  cbn [map length plus] in *. replace (rsum [x]) with x in * by (unfold rsum; cbn; ring).
  inversion Hw as [|? w ? ws' Hx Hw']; subst. inversion Hw'; subst.
  assert (w = bin_share n i * x) as ->.
  { destruct Hx as [(j & Hj & Bj & ->)|(No & _)].
    - assert (j = i) as ->; [|reflexivity]. apply (bin_unique thresh n j i x); try assumption; [lia|].
      split; [lra|left; lra].
    - exfalso. apply (No i ltac:(lia)). split; [lra|left; lra]. }
  cbn [filter]. destruct (Rlt_dec thresh x); [|lra]. destruct (Rlt_dec x up); [|lra].
  unfold rsum. cbn [fold_right]. rewrite !Rplus_0_r. cbn [INR].
  assert (Sh : 1.05 < bin_share n i).
  { unfold bin_share. fold ratio. rewrite (proj2 (Nat.ltb_lt (Datatypes.S i) n) ltac:(lia)), (proj2 (Nat.ltb_lt 0 i) Hi0).
    destruct (factor_bounds _ ratio_bounds) as (_ & _ & F).
    replace ((1 + ratio) / 4 * (1 + / ratio)) with ((1 + ratio) ^ 2 / (4 * ratio)) by (field; lra). assumption. }
  pose proof (rho_crit_pos (u_h100 S) (u_grav S) (s_hubble S)) as HR.
  destruct HS as (H1 & H2 & H3 & H4 & H5 & H6 & H7). specialize (HR H1 H4 H7).
  assert (HL : 0 < s_box S * u_length S / s_hubble S) by (apply Rdiv_lt_0_compat; [apply Rmult_lt_0_compat|]; assumption).
  assert (HZ : 0 < (1 + s_red S) ^ 2) by (apply pow_lt; lra).
  set (len := s_box S * u_length S / s_hubble S) in *. set (z := (1 + s_red S) ^ 2) in *. set (rc := rho_crit _ _ _) in *.
  assert (Hx0 : 0 < x) by lra. clearbody x.
  assert (Q : 0 < mass * (x / 1) / z / len / rc).
  { assert (0 < mass * (x / 1)) by (apply Rmult_lt_0_compat; lra).
    repeat (apply Rdiv_lt_0_compat; [|assumption]). assumption. }
  split; [assumption|].
  replace (mass * (bin_share n i * x / 1) / z / len / rc) with (bin_share n i * (mass * (x / 1) / z / len / rc)) by (field; lra).
  apply Rmult_lt_compat_r; assumption.
Qed.

(** At most one bin: nothing is counted. *)
Lemma C59_narrow_aux : forall S mass discarded thresh up close dvbin rho, proper S -> 0 < thresh -> thresh < up -> rho <> [] ->
  up <= thresh * Rpower 10 (2 / 5) -> omega_abs_cddf S mass discarded thresh up close dvbin rho = 0.
Proof.
  intros S mass discarded thresh up close dvbin rho HS Ht Hu Hr Hup.
  destruct (C59_absorbers_aux S mass discarded thresh up close dvbin rho HS Ht Hu Hr) as (n & ws & Hb & Hw & E).
  assert (Hn : (n <= 1)%nat).
  { destruct (le_lt_dec n 1); [assumption|]. exfalso. pose proof (edge_le thresh 2 n Ht ltac:(lia)) as L.
    unfold dla_edge at 1 in L. replace (INR 2) with 2 in L by (simpl; lra). lra. }
  assert (Z : rsum ws = 0).
  { clear - Hw Hn. revert ws Hw. generalize (map rsum rho). intros l ws Hw.
    apply rsum_zero. intros w Hi. induction Hw as [|x w' l ws Hx Hw IH]; [contradiction|].
    destruct Hi as [<-|Hi]; [|auto]. destruct Hx as [(i & Hi & _ & ->)|(_ & ->)]; [|reflexivity].
    unfold bin_share. destruct (Nat.ltb_spec (Datatypes.S i) n); [lia|]. destruct (Nat.ltb_spec 0 i); [lia|]. ring. }
  rewrite E, Z. unfold Rdiv. ring.
Qed.

(** ** C58 *)

Lemma C58_path_aux : forall h light len z om a b, 0 < h -> 0 < light -> 0 < len -> 0 <= z -> 0 <= om <= 1 ->
  let X := fun l => absorption_distance h light len l z in
  let Dz := fun l => redshift_distance h light len l z om in
  X (a + b) = X a + X b /\ Dz (a + b) = Dz a + Dz b /\
  (0 < a -> 0 < X a /\ 0 < Dz a) /\
  X a * (hubble_rate h z om / hubble_rate h 0 om) = (1 + z) ^ 2 * Dz a /\
  Dz a * light = hubble_rate h z om * (a * len).
Proof.
  intros h light len z om a b Hh Hl HL Hz Hom X Dz.
  assert (A : 0 < om * (1 + z) ^ 3 + (1 - om)).
  { assert (1 <= (1 + z) ^ 3) by (rewrite <- (pow1 3); apply pow_incr; lra). nra. }
  assert (Q : 0 < sqrt (om * (1 + z) ^ 3 + (1 - om))) by (apply sqrt_lt_R0; assumption).
  assert (H0 : hubble_rate h 0 om = h).
  { unfold hubble_rate. replace (om * (1 + 0) ^ 3 + (1 - om)) with 1 by ring. rewrite sqrt_1. ring. }
  unfold X, Dz, absorption_distance, redshift_distance.
  split; [field; lra|]. split; [field; lra|]. split.
  - intros Ha. split.
    + apply Rmult_lt_0_compat; [|apply pow_lt; lra]. repeat apply Rmult_lt_0_compat; try assumption.
      apply Rinv_0_lt_compat; assumption.
    + repeat apply Rmult_lt_0_compat; try assumption. apply Rinv_0_lt_compat; assumption.
  - rewrite H0. unfold hubble_rate. split; field; lra.
Qed.

Lemma C58_hubble_aux : forall h om z z', 0 < h -> 0 < om <= 1 -> 0 <= z -> z < z' ->
  hubble_rate h 0 om = h /\ h <= hubble_rate h z om /\ hubble_rate h z om < hubble_rate h z' om.
Proof.
  intros h om z z' Hh Hom Hz Hlt. unfold hubble_rate.
  assert (M : forall u v, 0 <= u -> u < v -> (1 + u) ^ 3 < (1 + v) ^ 3).
  { intros u v Hu Huv. assert (A : 0 < (v - u) * ((1 + u) * (1 + u) + (1 + u) * (1 + v) + (1 + v) * (1 + v))).
    { apply Rmult_lt_0_compat; nra. }
    replace ((1 + v) ^ 3) with ((1 + u) ^ 3 + (v - u) * ((1 + u) * (1 + u) + (1 + u) * (1 + v) + (1 + v) * (1 + v))) by ring.
    lra. }
  assert (P1 : 1 <= (1 + z) ^ 3) by (rewrite <- (pow1 3); apply pow_incr; lra).
  split; [|split].
  - replace (om * (1 + 0) ^ 3 + (1 - om)) with 1 by ring. rewrite sqrt_1. ring.
  - rewrite <- (Rmult_1_r h) at 1. apply Rmult_le_compat_l; [lra|]. 
    set (c := (1 + z) ^ 3) in *. clearbody c. apply Rle_trans with (sqrt 1); [rewrite sqrt_1; lra|]. apply sqrt_le_1; nra.
  - apply Rmult_lt_compat_l; [assumption|]. specialize (M z z' Hz Hlt).
    set (c := (1 + z) ^ 3) in *. set (c' := (1 + z') ^ 3) in *. clearbody c c'. apply sqrt_lt_1; nra.
Qed.

Lemma C58_same_counts_aux : forall S minN maxN dlogN discarded line close dvbin rho i,
  proper S -> 0 <= s_omegam S <= 1 ->
  fst (cddf S minN maxN dlogN discarded line close dvbin true rho) = fst (cddf S minN maxN dlogN discarded line close dvbin false rho) /\
  nth i (snd (cddf S minN maxN dlogN discarded line close dvbin true rho)) 0 * path S true =
  nth i (snd (cddf S minN maxN dlogN discarded line close dvbin false rho)) 0 * path S false.
Proof.
  intros S minN maxN dlogN discarded line close dvbin rho i HS Hom. split; [reflexivity|].
  assert (P : 0 < path S true /\ 0 < path S false).
  { destruct HS as (H1 & H2 & H3 & H4 & H5 & H6 & H7).
    destruct (C58_path_aux (u_h100 S) (u_light S) (u_length S) (s_red S) (s_omegam S) (s_box S) 0 H1 H2 H3 H6 Hom)
      as (_ & _ & P & _). apply P. assumption. }
  destruct P as (P1 & P2). unfold cddf, column_density_function. cbn [snd].
  set (tot := INR (length rho) + INR discarded). set (tb := nhi_table minN maxN dlogN).
  set (ab := if line then _ else _). generalize (combine (histogram ab tb) (diff tb)). clear - P1 P2. intros l. revert i.
  induction l as [|(c, wd) l IH]; intros i; [destruct i; cbn; ring|]. destruct i as [|i]; [|cbn [map nth]; apply IH].
  cbn [map nth fst snd].
  assert (G : forall p, 0 < p -> c / (wd * p * tot) * p = c / (wd * tot)).
  { intros p Hp. unfold Rdiv. rewrite (Rmult_comm wd p), (Rmult_assoc p), Rinv_mult. rewrite (Rmult_comm (/ p)).
    rewrite <- Rmult_assoc, Rmult_assoc. rewrite Rinv_l by lra. ring. }
  rewrite !G by assumption. reflexivity.
Qed.

(** ** C60 *)

Lemma path_pos : forall S dX, proper S -> 0 <= s_omegam S <= 1 -> 0 < path S dX.
Proof.
  intros S dX (H1 & H2 & H3 & H4 & H5 & H6 & H7) Hom.
  destruct (C58_path_aux (u_h100 S) (u_light S) (u_length S) (s_red S) (s_omegam S) (s_box S) 0 H1 H2 H3 H6 Hom)
    as (_ & _ & P & _). destruct (P H5). destruct dX; assumption.
Qed.

Lemma examined_pos : forall (tau : list (list R)) discarded, tau <> [] -> 0 < INR (length tau) /\ 0 < INR (length tau) + INR discarded.
Proof.
  intros tau discarded H. assert (0 < INR (length tau)) by (apply lt_0_INR; destruct tau; [congruence|cbn; lia]).
  pose proof (pos_INR discarded). lra.
Qed.

Lemma C60_counts_aux : forall S fit minN maxN dlogN discarded dX nspectra tau used,
  proper S -> 0 <= s_omegam S <= 1 -> 0 < dlogN -> minN < maxN -> tau <> [] ->
  ((nspectra <= 0)%Z /\ used = tau \/
   (0 < nspectra <= Z.of_nat (length tau))%Z /\ exists rest, tau = used ++ rest /\ Z.of_nat (length used) = nspectra) ->
  exists n center f,
    column_density_from_voigt S fit minN maxN dlogN discarded dX nspectra tau = Some (center, f) /\
    minN + INR n * dlogN < maxN <= minN + INR (Datatypes.S n) * dlogN /\ length center = n /\ length f = n /\
    forall i, (i < n)%nat ->
      nth i center 0 = (bin_edge minN dlogN i + bin_edge minN dlogN (Datatypes.S i)) / 2 /\
      exists m, number (falls_into minN dlogN n i) (concat (map fit used)) m /\
        nth i f 0 * (bin_edge minN dlogN (Datatypes.S i) - bin_edge minN dlogN i) *
          (path S dX * (INR (length used) * (1 + INR discarded / INR (length tau)))) = INR m.
Proof.
  intros S fit minN maxN dlogN discarded dX nspectra tau used HS Hom Hd Hm Htau Hused.
  destruct (number_bins minN maxN dlogN Hd Hm) as (n & En & Hn).
  set (e := bin_edge minN dlogN).
  assert (Hinc : forall i, (i < n)%nat -> e i < e (Datatypes.S i)) by (intros; apply edge_inc; assumption).
  pose proof (path_pos S dX HS Hom) as Hp. destruct (examined_pos tau discarded Htau) as (Hl & Ht).
  assert (Hu : used <> []).
  { destruct Hused as [(_ & ->)|(Hn' & rest & _ & E)]; [assumption|]. destruct used; [cbn in E; lia|discriminate]. }
  set (a := concat (map fit used)).
  assert (Tot : exists tot, 0 < tot /\ tot = INR (length used) * (1 + INR discarded / INR (length tau)) /\
    column_density_from_voigt S fit minN maxN dlogN discarded dX nspectra tau =
    Some (centers (nhi_table minN maxN dlogN),
          map (fun p => fst p / (snd p * path S dX * tot)) (combine (histogram a (nhi_table minN maxN dlogN)) (diff (nhi_table minN maxN dlogN))))).
  { unfold column_density_from_voigt. destruct Hused as [(H0 & ->)|(H0 & rest & E & Eu)].
    - rewrite (proj2 (Z.ltb_ge 0 nspectra)) by lia. exists (INR (length tau) + INR discarded).
      split; [assumption|]. split; [field; lra|]. unfold voigt_systems. destruct tau; [congruence|reflexivity].
    - rewrite (proj2 (Z.ltb_lt 0 nspectra)) by lia.
      exists ((INR (length tau) + INR discarded) * (IZR nspectra / INR (length tau))).
      split; [apply Rmult_lt_0_compat; [assumption|]; apply Rdiv_lt_0_compat; [apply IZR_lt; lia|assumption]|].
      split; [rewrite <- Eu, <- INR_IZR_INZ; field; lra|].
      assert (F : firstn (Z.to_nat nspectra) tau = used).
      { rewrite E, <- Eu, Nat2Z.id. rewrite firstn_app, Nat.sub_diag, firstn_all. cbn [firstn]. apply app_nil_r. }
      rewrite F. unfold voigt_systems. destruct used; [congruence|reflexivity]. }
  destruct Tot as (tot & Hpos & Etot & Ef). rewrite <- Etot.
  set (f := map (fun i => (cum e n a (Datatypes.S i) - cum e n a i) / ((e (Datatypes.S i) - e i) * path S dX * tot)) (seq 0 n)).
  exists n, (map (fun i => (e i + e (Datatypes.S i)) / 2) (seq 0 n)), f.
  assert (Nf : forall i, (i < n)%nat -> nth i f 0 * (e (Datatypes.S i) - e i) * (path S dX * tot) = cum e n a (Datatypes.S i) - cum e n a i).
  { intros i Hi. unfold f. rewrite map_seq_nth by assumption. specialize (Hinc i Hi). field. split; [lra|]. split; lra. }
  split.
  { rewrite Ef, table_eq, En. fold e. rewrite centers_map, hist_eq, diff_map, combine_maps, map_map. reflexivity. }
  split; [assumption|].
  split; [rewrite map_length, seq_length; reflexivity|]. split; [unfold f; rewrite map_length, seq_length; reflexivity|].
  intros i Hi. rewrite map_seq_nth by assumption. split; [reflexivity|].
  destruct (number_exists _ (inside e n i) (inside_dec e n i) a) as (m & Hnum). exists m. split; [exact Hnum|].
  change (nth i f 0 * (e (Datatypes.S i) - e i) * (path S dX * tot) = INR m). rewrite Nf by assumption. apply inside_number; assumption.
Qed.

(** More spectra asked for than there are. *)
Lemma C60_too_many_aux : forall S fit minN maxN dlogN discarded dX nspectra tau, proper S -> 0 <= s_omegam S <= 1 -> tau <> [] ->
  (Z.of_nat (length tau) < nspectra)%Z ->
  exists center f g,
    column_density_from_voigt S fit minN maxN dlogN discarded dX nspectra tau = Some (center, f) /\
    column_density_from_voigt S fit minN maxN dlogN discarded dX (-1) tau = Some (center, g) /\
    forall i, nth i g 0 = nth i f 0 * (IZR nspectra / INR (length tau)).
Proof.
  intros S fit minN maxN dlogN discarded dX nspectra tau HS Hom Htau Hmany.
  pose proof (path_pos S dX HS Hom) as Hp. destruct (examined_pos tau discarded Htau) as (Hl & Ht).
  unfold column_density_from_voigt. rewrite (proj2 (Z.ltb_lt 0 nspectra)) by lia. cbn [Z.ltb Z.compare].
  rewrite firstn_all2 by lia. unfold voigt_systems. destruct tau as [|row tau]; [congruence|].
  set (a := concat _). eexists. eexists. eexists. split; [reflexivity|]. split; [reflexivity|].
  generalize (combine (histogram a (nhi_table minN maxN dlogN)) (diff (nhi_table minN maxN dlogN))). intros l.
  set (L := INR (length (row :: tau))) in *.
  assert (Hns : 0 < IZR nspectra) by (apply IZR_lt; lia).
  induction l as [|(c, w) l IH]; intros i; [destruct i; cbn; ring|]. destruct i as [|i]; [|cbn [map nth]; apply IH].
  cbn [map nth fst snd]. unfold Rdiv. rewrite !Rinv_mult. rewrite Rinv_inv.
  set (iw := / w). assert (IZR nspectra * / IZR nspectra = 1) by (apply Rinv_r; lra).
  assert (L * / L = 1) by (apply Rinv_r; lra).
  replace (c * (iw * / path S dX * (/ (L + INR discarded) * (/ IZR nspectra * L))) * (IZR nspectra * / L))
    with (c * (iw * / path S dX * / (L + INR discarded)) * ((IZR nspectra * / IZR nspectra) * (L * / L))) by ring.
  rewrite H, H0. ring.
Qed.

Lemma C60_none_aux : forall S fit minN maxN dlogN discarded dX nspectra,
  column_density_from_voigt S fit minN maxN dlogN discarded dX nspectra [] = None.
Proof.
  intros. unfold column_density_from_voigt. destruct (0 <? nspectra)%Z; [rewrite firstn_nil|]; reflexivity.
Qed.

(** ** Density of lines above an equivalent width *)

Lemma C56_eq_width_aux : forall S dvbin line discarded thresh tau, proper S -> 0 <= s_omegam S <= 1 -> tau <> [] ->
  exists m, number (fun w => thresh < w) (equivalent_width dvbin (u_light S) line tau) m /\
    line_density_eq_w S dvbin line discarded thresh tau =
    Some (INR m / (INR (length tau + discarded) * path S true)).
Proof.
  intros S dvbin line discarded thresh tau HS Hom Htau. unfold line_density_eq_w.
  assert (Le : length (equivalent_width dvbin (u_light S) line tau) = length tau) by (unfold equivalent_width; apply map_length).
  rewrite Le. exists (length (filter (fun x => if Rlt_dec thresh x then true else false) (equivalent_width dvbin (u_light S) line tau))).
  split; [apply number_filter; intros x; destruct (Rlt_dec thresh x); split; intros; congruence|].
  destruct (examined_pos tau discarded Htau) as (Hl & Ht). pose proof (path_pos S true HS Hom).
  destruct (length tau + discarded)%nat eqn:E; [destruct tau; [congruence|cbn in E; lia]|]. rewrite <- E, plus_INR.
  f_equal. field. split; lra.
Qed.

Lemma path_is : forall S dX, 0 < u_light S -> path S dX = box_path S dX.
Proof.
  intros S dX H. unfold path, box_path, absorption_distance, redshift_distance. destruct dX; [field; lra|].
  replace (s_omegam S * (1 + s_red S) ^ 3 + 1 - s_omegam S) with (s_omegam S * (1 + s_red S) ^ 3 + (1 - s_omegam S)) by ring.
  field; lra.
Qed.

Lemma critical_is : forall S, rho_crit (u_h100 S) (u_grav S) (s_hubble S) = critical S.
Proof. reflexivity. Qed.

Lemma C56_omega_aux : forall S mass discarded lo hi rho, proper S -> rho <> [] ->
  omega_direct S mass discarded lo hi rho =
  Some (mass * (rsum (filter (fun x => if Rlt_dec lo x then if Rlt_dec x hi then true else false else false) (map rsum rho)) /
               INR (length rho + discarded)) / (1 + s_red S) ^ 2 / (s_box S * u_length S / s_hubble S) / critical S).
Proof.
  intros S mass discarded lo hi rho (H1 & H2 & H3 & H4 & H5 & H6 & H7) Hr. unfold omega_direct, omega_abs.
  rewrite C56_density_aux; [reflexivity| | |assumption].
  - apply Rgt_not_eq. apply Rdiv_lt_0_compat; [apply Rmult_lt_0_compat|]; assumption.
  - lra.
Qed.
