From Coq Require Import ZArith List Bool Reals Lra Lia Psatz Permutation.
From Flocq Require Import Core.Raux.
From Coquelicot Require Import Rcomplements.
From Verif Require Import AbsorptionModel AbsorptionSpec KernelProofs AbsorptionProofs.
Import ListNotations.
Local Open Scope R_scope.

(** ** The loop with early exit deposits a prefix of the pixels *)
Fixpoint stop (t : R) (v : Z -> R) (zs : list Z) : list Z :=
  match zs with
  | [] => []
  | z :: zs' => z :: (if Rlt_dec (v z) t then [] else stop t v zs')
  end.

Lemma tau_loop_deposit : forall n t v zs tau,
  tau_loop n t v zs tau = deposit n v (stop t v zs) (Some tau).
Proof.
  induction zs as [|z zs IH]; intros tau; [reflexivity|].
  simpl. unfold deposit. simpl.
  destruct (add_at (wrap_index z n) (v z) tau) as [tau'|].
  - destruct (Rlt_dec (v z) t); [reflexivity|]. apply IH.
  - destruct (Rlt_dec (v z) t); [reflexivity|]. symmetry. apply deposit_none.
Qed.

Lemma deposit_app : forall n v l1 l2 a,
  deposit n v (l1 ++ l2) a = deposit n v l2 (deposit n v l1 a).
Proof. intros. unfold deposit. apply fold_left_app. Qed.

Lemma zrange_up_S : forall a n, zrange_up a (S n) = a :: zrange_up (a + 1) n.
Proof.
  intros. unfold zrange_up. simpl. f_equal; [lia|].
  rewrite <- seq_shift, map_map. apply map_ext. intros. lia.
Qed.
Lemma zrange_down_S : forall a n, zrange_down a (S n) = a :: zrange_down (a - 1) n.
Proof.
  intros. unfold zrange_down. simpl. f_equal; [lia|].
  rewrite <- seq_shift, map_map. apply map_ext. intros. lia.
Qed.

Lemma in_stop_up : forall t v n a z,
  In z (stop t v (zrange_up a n)) <->
  (a <= z < a + Z.of_nat n)%Z /\ forall z', (a <= z' < z)%Z -> t <= v z'.
Proof.
  induction n; intros a z.
  - simpl. split; [tauto|lia].
  - rewrite zrange_up_S. simpl. split.
    + intros [->|H].
      * split; [lia|]. intros z' Hz'. lia.
      * destruct (Rlt_dec (v a) t); [destruct H|]. apply IHn in H. destruct H as (H1 & H2).
        split; [lia|]. intros z' Hz'. destruct (Z.eq_dec z' a) as [->|]; [lra|]. apply H2. lia.
    + intros (H1 & H2). destruct (Z.eq_dec a z) as [->|]; [auto|]. right.
      destruct (Rlt_dec (v a) t); [specialize (H2 a ltac:(lia)); lra|].
      apply IHn. split; [lia|]. intros z' Hz'. apply H2. lia.
Qed.

Lemma in_stop_down : forall t v n a z,
  In z (stop t v (zrange_down a n)) <->
  (a - Z.of_nat n < z <= a)%Z /\ forall z', (z < z' <= a)%Z -> t <= v z'.
Proof.
  induction n; intros a z.
  - simpl. split; [tauto|lia].
  - rewrite zrange_down_S. simpl. split.
    + intros [->|H].
      * split; [lia|]. intros z' Hz'. lia.
      * destruct (Rlt_dec (v a) t); [destruct H|]. apply IHn in H. destruct H as (H1 & H2).
        split; [lia|]. intros z' Hz'. destruct (Z.eq_dec z' a) as [->|]; [lra|]. apply H2. lia.
    + intros (H1 & H2). destruct (Z.eq_dec a z) as [->|]; [auto|]. right.
      destruct (Rlt_dec (v a) t); [specialize (H2 a ltac:(lia)); lra|].
      apply IHn. split; [lia|]. intros z' Hz'. apply H2. lia.
Qed.

Lemma stop_incl : forall t v zs z, In z (stop t v zs) -> In z zs.
Proof.
  induction zs as [|a zs IH]; simpl; intros z H; [tauto|].
  destruct H; [auto|]. destruct (Rlt_dec (v a) t); [destruct H|auto].
Qed.

Lemma stop_NoDup : forall t v zs, NoDup zs -> NoDup (stop t v zs).
Proof.
  induction 1; simpl; constructor.
  - destruct (Rlt_dec (v x) t); [auto|]. intros Hi. apply H. eapply stop_incl; eauto.
  - destruct (Rlt_dec (v x) t); [constructor|assumption].
Qed.

Lemma NoDup_zrange_down : forall a n, NoDup (zrange_down a n).
Proof.
  intros. unfold zrange_down. apply FinFun.Injective_map_NoDup; [|apply seq_NoDup].
  intros x y H. lia.
Qed.

Definition visited (t : R) (v : Z -> R) (n c : Z) : list Z :=
  stop t v (zrange_up c (Z.to_nat (Z.quot n 2))) ++ stop t v (zrange_down (c - 1) (Z.to_nat (Z.quot n 2))).

Lemma in_visited : forall t v n c z, (0 <= n)%Z ->
  In z (visited t v n c) <-> in_window n c z /\ reached t v c z.
Proof.
  intros t v n c z Hn. unfold visited, in_window, reached.
  rewrite in_app_iff, in_stop_up, in_stop_down.
  rewrite Z.quot_div_nonneg by lia.
  pose proof (Z.div_pos n 2 Hn ltac:(lia)) as Hh.
  rewrite Z2Nat.id by assumption. split.
  - intros [(H1 & H2)|(H1 & H2)]; (split; [lia|]); intros z' Hz'; apply H2; lia.
  - intros (H1 & H2). destruct (Z_le_gt_dec c z).
    + left. split; [lia|]. intros z' Hz'. apply H2. lia.
    + right. split; [lia|]. intros z' Hz'. apply H2. lia.
Qed.

Lemma visited_NoDup : forall t v n c, (0 <= n)%Z -> NoDup (visited t v n c).
Proof.
  intros t v n c Hn. unfold visited.
  assert (D : forall z, In z (stop t v (zrange_up c (Z.to_nat (Z.quot n 2)))) ->
    ~ In z (stop t v (zrange_down (c - 1) (Z.to_nat (Z.quot n 2))))).
  { intros z H1 H2. apply in_stop_up in H1. apply in_stop_down in H2. lia. }
  pose proof (stop_NoDup t v _ (NoDup_zrange_up c (Z.to_nat (Z.quot n 2)))) as N1.
  pose proof (stop_NoDup t v _ (NoDup_zrange_down (c - 1) (Z.to_nat (Z.quot n 2)))) as N2.
  revert D N1. generalize (stop t v (zrange_up c (Z.to_nat (Z.quot n 2)))) as l.
  induction l as [|x l IH]; simpl; intros D N1; [assumption|].
  inversion N1; subst. constructor.
  - rewrite in_app_iff. intros [H|H]; [contradiction|]. apply (D x); auto.
  - apply IH; auto.
Qed.

Lemma window_inj : forall n c z1 z2, (0 < n)%Z -> in_window n c z1 -> in_window n c z2 ->
  (z1 mod n = z2 mod n)%Z -> z1 = z2.
Proof.
  intros n c z1 z2 Hn H1 H2 E. unfold in_window in *.
  pose proof (Z.div_mod z1 n ltac:(lia)). pose proof (Z.div_mod z2 n ltac:(lia)).
  pose proof (Z.mul_div_le n 2 ltac:(lia)).
  assert (z1 / n = z2 / n)%Z by nia. nia.
Qed.

(** A list in which z is the only element of its residue class. *)
Lemma at_pixel_unique : forall (n : nat) zs z, (0 < n)%nat -> NoDup zs ->
  (forall z', In z' zs -> (z' mod Z.of_nat n = z mod Z.of_nat n)%Z -> z' = z) ->
  (In z zs -> at_pixel (Z.of_nat n) (Z.to_nat (z mod Z.of_nat n)) zs = [z]) /\
  (~ In z zs -> at_pixel (Z.of_nat n) (Z.to_nat (z mod Z.of_nat n)) zs = []).
Proof.
  intros n zs z Hn. pose proof (Z.mod_pos_bound z (Z.of_nat n) ltac:(lia)) as Hb.
  induction zs as [|a zs IH]; intros N U; [simpl; tauto|].
  inversion N; subst. destruct IH as (I1 & I2); [assumption|intros; apply U; simpl; auto|].
  unfold at_pixel in *. cbn [filter]. rewrite Z2Nat.id in * by lia.
  destruct (Z.eqb_spec (a mod Z.of_nat n) (z mod Z.of_nat n)) as [E|E].
  - assert (a = z) by (apply U; simpl; auto). subst a. split.
    + intros _. f_equal. apply I2. assumption.
    + intros H. exfalso. apply H. simpl. auto.
  - assert (a <> z) by congruence. split.
    + intros [->|H']; [congruence|]. apply I1. assumption.
    + intros H'. apply I2. simpl in H'. tauto.
Qed.

Lemma at_pixel_empty : forall n j zs, (forall z, In z zs -> (z mod n)%Z <> Z.of_nat j) -> at_pixel n j zs = [].
Proof.
  induction zs as [|a zs IH]; intros H; [reflexivity|].
  unfold at_pixel in *. simpl. destruct (Z.eqb_spec (a mod n) (Z.of_nat j)) as [E|E].
  - exfalso. apply (H a); simpl; auto.
  - apply IH. intros z Hz. apply H. simpl. auto.
Qed.

Lemma two_loops : forall (n : nat) t v c tau, (0 < n)%nat -> length tau = n ->
  exists tau', deposit (Z.of_nat n) v (visited t v (Z.of_nat n) c) (Some tau) = Some tau' /\ length tau' = n /\
    (forall z, in_window (Z.of_nat n) c z ->
       let j := Z.to_nat (z mod Z.of_nat n) in
       (reached t v c z -> nth j tau' 0 = nth j tau 0 + v z) /\
       (~ reached t v c z -> nth j tau' 0 = nth j tau 0)) /\
    (forall j, (forall z, in_window (Z.of_nat n) c z -> (z mod Z.of_nat n)%Z <> Z.of_nat j) ->
       nth j tau' 0 = nth j tau 0).
Proof.
  intros n t v c tau Hn Hl.
  destruct (deposit_spec n v (visited t v (Z.of_nat n) c) tau Hn Hl) as (tau' & E & L & N).
  exists tau'. split; [exact E|]. split; [exact L|]. split.
  - intros z Hz j.
    destruct (at_pixel_unique n (visited t v (Z.of_nat n) c) z Hn) as (U1 & U2).
    { apply visited_NoDup. lia. }
    { intros z' Hz' Hm. apply in_visited in Hz'; [|lia]. apply (window_inj (Z.of_nat n) c); try tauto. lia. }
    split; intros Hr; unfold j; rewrite N.
    + rewrite U1; [unfold rsum; simpl; ring|]. apply in_visited; [lia|]. auto.
    + rewrite U2; [unfold rsum; simpl; ring|]. rewrite in_visited by lia. tauto.
  - intros j Hj. rewrite N, at_pixel_empty; [unfold rsum; simpl; ring|].
    intros z Hz. apply in_visited in Hz; [|lia]. apply Hj. tauto.
Qed.

(** ** The particle as the loops see it *)
Section Tau.
Variable profile : R -> R -> R.

Lemma tau_unfold : forall L k (n : nat) dr2 dens ppos pvel temp smooth tau,
  (0 < n)%nat -> takes_part k (vbox L / velfac L) dr2 smooth ->
  let vel := particle_vel L k dr2 ppos pvel smooth in
  add_tau_particle profile L k (Z.of_nat n) dr2 dens ppos pvel temp smooth tau =
  deposit (Z.of_nat n) (pixel_tau profile L k n dr2 dens vel temp smooth)
    (visited (tautail L) (pixel_tau profile L k n dr2 dens vel temp smooth) (Z.of_nat n)
       (Zfloor (vel / (vbox L / INR n)))) (Some tau).
Proof.
  intros L k n dr2 dens ppos pvel temp smooth tau Hn T vel.
  assert (G : forall v c, match tau_loop (Z.of_nat n) (tautail L) v (zrange_up c (Z.to_nat (Z.quot (Z.of_nat n) 2))) tau with
     | None => None
     | Some tau' => tau_loop (Z.of_nat n) (tautail L) v (zrange_down (c - 1) (Z.to_nat (Z.quot (Z.of_nat n) 2))) tau'
     end = deposit (Z.of_nat n) v (visited (tautail L) v (Z.of_nat n) c) (Some tau)).
  { intros v c. unfold visited. rewrite deposit_app, <- tau_loop_deposit.
    destruct (tau_loop _ _ _ _ tau) as [tau'|].
    - apply tau_loop_deposit.
    - symmetry. apply deposit_none. }
  rewrite <- G. unfold add_tau_particle, vel, pixel_tau, particle_vel, centre.
  rewrite <- INR_IZR_INZ.
  destruct k; simpl in T;
    try (destruct (Rle_dec (smooth * smooth - dr2) 0); [lra|]; reflexivity).
  destruct T as (T1 & T2).
  assert (E : 2 * vbox L / velfac L = 2 * (vbox L / velfac L)) by (unfold Rdiv; ring).
  rewrite E.
  destruct (Rlt_dec _ dr2); [lra|]. destruct (Rlt_dec _ smooth); [lra|]. reflexivity.
Qed.

Lemma tau_skip : forall L k n dr2 dens ppos pvel temp smooth tau,
  ~ takes_part k (vbox L / velfac L) dr2 smooth ->
  add_tau_particle profile L k n dr2 dens ppos pvel temp smooth tau = Some tau.
Proof.
  intros L k n dr2 dens ppos pvel temp smooth tau T. unfold add_tau_particle.
  destruct k; simpl in T; try (destruct (Rle_dec (smooth * smooth - dr2) 0); [reflexivity|lra]).
  assert (E : 2 * vbox L / velfac L = 2 * (vbox L / velfac L)) by (unfold Rdiv; ring).
  rewrite E.
  destruct (Rlt_dec _ dr2); [reflexivity|]. destruct (Rlt_dec _ smooth); [reflexivity|].
  exfalso. apply T. lra.
Qed.

Lemma C10_pixels_aux : forall L k (n : nat) dr2 dens ppos pvel temp smooth tau,
  (0 < n)%nat -> length tau = n -> takes_part k (vbox L / velfac L) dr2 smooth ->
  let vel := particle_vel L k dr2 ppos pvel smooth in
  let c := Zfloor (vel / (vbox L / INR n)) in
  let v := pixel_tau profile L k n dr2 dens vel temp smooth in
  exists tau',
    add_tau_particle profile L k (Z.of_nat n) dr2 dens ppos pvel temp smooth tau = Some tau' /\
    length tau' = n /\
    (forall z, in_window (Z.of_nat n) c z ->
       let j := Z.to_nat (z mod Z.of_nat n) in
       (reached (tautail L) v c z -> nth j tau' 0 = nth j tau 0 + v z) /\
       (~ reached (tautail L) v c z -> nth j tau' 0 = nth j tau 0)) /\
    (forall j, (forall z, in_window (Z.of_nat n) c z -> (z mod Z.of_nat n)%Z <> Z.of_nat j) ->
       nth j tau' 0 = nth j tau 0).
Proof.
  intros L k n dr2 dens ppos pvel temp smooth tau Hn Hl T vel c v.
  rewrite tau_unfold by assumption. fold vel. fold v. fold c. apply two_loops; assumption.
Qed.

(** Parity: which pixels the window covers. *)
Lemma C10_window_aux : forall (n : nat) c, (0 < n)%nat ->
  (forall z1 z2, in_window (Z.of_nat n) c z1 -> in_window (Z.of_nat n) c z2 ->
     (z1 mod Z.of_nat n = z2 mod Z.of_nat n)%Z -> z1 = z2) /\
  (Nat.even n = true -> forall j, (j < n)%nat ->
     exists z, in_window (Z.of_nat n) c z /\ (z mod Z.of_nat n)%Z = Z.of_nat j) /\
  (Nat.even n = false -> forall j, (j < n)%nat ->
     ((exists z, in_window (Z.of_nat n) c z /\ (z mod Z.of_nat n)%Z = Z.of_nat j) <->
      Z.of_nat j <> ((c + Z.of_nat n / 2) mod Z.of_nat n)%Z)).
Proof.
  intros n c Hn. set (N := Z.of_nat n). assert (HN : (0 < N)%Z) by (unfold N; lia).
  assert (Ex : forall j lo, (0 <= j < N)%Z -> exists z, (lo <= z < lo + N)%Z /\ (z mod N)%Z = j).
  { intros j lo Hj. exists (lo + (j - lo) mod N)%Z.
    pose proof (Z.mod_pos_bound (j - lo) N HN). split; [lia|].
    rewrite Z.add_mod_idemp_r by lia. replace (lo + (j - lo))%Z with j by lia. apply Z.mod_small. assumption. }
  split; [intros; eapply window_inj; eauto|]. split.
  - intros He j Hj. apply Nat.even_spec in He. destruct He as (m & Hm).
    destruct (Ex (Z.of_nat j) (c - N / 2)%Z ltac:(unfold N; lia)) as (z & Hz & E).
    exists z. split; [|assumption]. unfold in_window.
    assert (N / 2 = Z.of_nat m)%Z.
    { unfold N. rewrite Hm. replace (Z.of_nat (2 * m)) with (Z.of_nat m * 2)%Z by lia. apply Z.div_mul. lia. }
    lia.
  - intros Ho j Hj.
    assert (O : Nat.odd n = true) by (rewrite <- Nat.negb_even, Ho; reflexivity).
    apply Nat.odd_spec in O. destruct O as (m & Hm).
    assert (Hh : (N / 2 = Z.of_nat m)%Z).
    { symmetry. apply Z.div_unique with (r := 1%Z); unfold N; lia. }
    destruct (Ex (Z.of_nat j) (c - N / 2)%Z ltac:(unfold N; lia)) as (z & Hz & E). split.
    + intros (z0 & W & E0) Hj'. unfold in_window in W.
      assert (z0 = c + N / 2)%Z; [|lia].
      pose proof (Z.div_mod z0 N ltac:(lia)). pose proof (Z.div_mod (c + N / 2) N ltac:(lia)).
      assert (z0 / N = (c + N / 2) / N)%Z by nia. nia.
    + intros Hj'. exists z. split; [|assumption]. unfold in_window.
      destruct (Z.eq_dec z (c + N / 2)) as [->|]; [congruence|]. unfold N in *. lia.
Qed.

(** ** Rotation *)
Lemma stop_shift : forall t v v' k n a, (forall z, v' (z + k)%Z = v z) ->
  stop t v' (zrange_up (a + k) n) = map (fun z => (z + k)%Z) (stop t v (zrange_up a n)).
Proof.
  intros t v v' k n. induction n; intros a Hv; [reflexivity|].
  rewrite !zrange_up_S. simpl. rewrite Hv. f_equal.
  destruct (Rlt_dec (v a) t); [reflexivity|].
  replace (a + k + 1)%Z with (a + 1 + k)%Z by lia. apply IHn. assumption.
Qed.
Lemma stop_shift_down : forall t v v' k n a, (forall z, v' (z + k)%Z = v z) ->
  stop t v' (zrange_down (a + k) n) = map (fun z => (z + k)%Z) (stop t v (zrange_down a n)).
Proof.
  intros t v v' k n. induction n; intros a Hv; [reflexivity|].
  rewrite !zrange_down_S. simpl. rewrite Hv. f_equal.
  destruct (Rlt_dec (v a) t); [reflexivity|].
  replace (a + k - 1)%Z with (a - 1 + k)%Z by lia. apply IHn. assumption.
Qed.

Lemma visited_shift : forall t v v' k n c, (forall z, v' (z + k)%Z = v z) ->
  visited t v' n (c + k) = map (fun z => (z + k)%Z) (visited t v n c).
Proof.
  intros. unfold visited. rewrite map_app, (stop_shift t v v') by assumption. f_equal.
  replace (c + k - 1)%Z with (c - 1 + k)%Z by lia. apply stop_shift_down. assumption.
Qed.

Lemma at_pixel_shift_list : forall (n : nat) k (v v' : Z -> R) zs j, (0 < n)%nat ->
  (0 <= j < Z.of_nat n)%Z ->
  (forall z, v' (z + k)%Z = v z) ->
  map v' (at_pixel (Z.of_nat n) (Z.to_nat ((j + k) mod Z.of_nat n)) (map (fun z => (z + k)%Z) zs)) =
  map v (at_pixel (Z.of_nat n) (Z.to_nat j) zs).
Proof.
  intros n k v v' zs j Hn Hj Hv.
  pose proof (nth_mod_shift n k j Hn Hj) as Hb.
  induction zs as [|a zs IH]; [reflexivity|].
  unfold at_pixel in *. cbn [map filter]. rewrite !Z2Nat.id in * by lia.
  assert (Q : ((a + k) mod Z.of_nat n =? (j + k) mod Z.of_nat n)%Z = (a mod Z.of_nat n =? j)%Z).
  { apply eq_true_iff_eq. rewrite !Z.eqb_eq. split; intros H.
    - assert (H' : ((a + k - k) mod Z.of_nat n = (j + k - k) mod Z.of_nat n)%Z).
      { rewrite <- (Zminus_mod_idemp_l (a + k)), H, Zminus_mod_idemp_l. reflexivity. }
      replace (a + k - k)%Z with a in H' by lia.
      replace (j + k - k)%Z with j in H' by lia. rewrite H'. apply Z.mod_small. lia.
    - rewrite <- (Zplus_mod_idemp_l a), H. reflexivity. }
  rewrite Q. destruct (_ =? j)%Z; [|exact IH]. cbn [map]. rewrite Hv. f_equal. exact IH.
Qed.

Lemma C10_rotation_aux : forall L k (n : nat) dr2 dens ppos pvel temp smooth (s : Z) t1 t2,
  0 < vbox L -> (0 < n)%nat ->
  add_tau_particle profile L k (Z.of_nat n) dr2 dens ppos pvel temp smooth (repeat 0 n) = Some t1 ->
  add_tau_particle profile L k (Z.of_nat n) dr2 dens ppos (pvel + IZR s * (vbox L / INR n)) temp smooth
    (repeat 0 n) = Some t2 ->
  rotated s t1 t2.
Proof.
  intros L k n dr2 dens ppos pvel temp smooth s t1 t2 Hv Hn E1 E2.
  assert (Hl : length (repeat 0 n) = n) by apply repeat_length.
  assert (Hb : 0 < vbox L / INR n) by (apply Rdiv_lt_0_compat; [assumption|apply lt_0_INR; lia]).
  destruct (takes_part_dec k (vbox L / velfac L) dr2 smooth) as [T|T].
  - rewrite tau_unfold in E1, E2 by assumption.
    set (bin := vbox L / INR n) in *.
    set (vel := particle_vel L k dr2 ppos pvel smooth) in *.
    assert (Ev : particle_vel L k dr2 ppos (pvel + IZR s * bin) smooth = vel + IZR s * bin)
      by (unfold vel, particle_vel; ring).
    rewrite Ev in E2. rewrite shift_floor in E2 by lra.
    assert (Hsh : forall z, pixel_tau profile L k n dr2 dens (vel + IZR s * bin) temp smooth (z + s)%Z =
                           pixel_tau profile L k n dr2 dens vel temp smooth z).
    { intros z. unfold pixel_tau. fold bin. rewrite plus_IZR.
      replace ((IZR z + IZR s) * bin - (vel + IZR s * bin)) with (IZR z * bin - vel) by ring. reflexivity. }
    rewrite (visited_shift (tautail L) (pixel_tau profile L k n dr2 dens vel temp smooth)) in E2 by assumption.
    match type of E1 with deposit _ ?v ?zs _ = _ =>
      destruct (deposit_spec n v zs (repeat 0 n) Hn Hl) as (a1 & F1 & L1 & N1) end.
    rewrite E1 in F1. injection F1 as <-.
    match type of E2 with deposit _ ?v ?zs _ = _ =>
      destruct (deposit_spec n v zs (repeat 0 n) Hn Hl) as (a2 & F2 & L2 & N2) end.
    rewrite E2 in F2. injection F2 as <-.
    split; [congruence|]. intros j Hj. rewrite L1 in *.
    rewrite N1, N2, !nth_repeat0. f_equal. f_equal. apply at_pixel_shift_list; assumption.
  - rewrite tau_skip in E1, E2 by assumption. injection E1 as <-. injection E2 as <-.
    split; [reflexivity|]. intros. rewrite !nth_repeat0. reflexivity.
Qed.

(** ** The tail *)
Lemma weight_nonneg : forall k q, 0 <= q -> 0 <= tau_weight k q.
Proof.
  intros k q Hq. destruct k; simpl.
  - pose proof PI_RGT_0. apply Rdiv_le_0_compat; lra.
  - apply cubic_nonneg; assumption.
  - lra.
  - apply quintic_nonneg; assumption.
Qed.

Lemma vhigh_nonneg : forall k d h, (k = Voronoi -> d <= h) -> 0 <= m_vhigh k d h.
Proof.
  intros k d h H. destruct k; simpl; try (destruct (Rlt_dec d (h * h)); [apply sqrt_pos|lra]).
  specialize (H eq_refl). destruct (Rlt_dec 0 d); [|lra]. destruct (Rlt_dec 0 h); lra.
Qed.

Section Inner.
Variables (k : kern) (b d h aa : R).
Hypothesis Hb : 0 < b.
Hypothesis Hh : 0 < h.
Hypothesis Hk : k = Voronoi -> d <= h.
Hypothesis Hp : bell (fun u => profile u aa).
Let r := m_vhigh k d h.

Lemma r_nonneg : 0 <= r.
Proof. apply vhigh_nonneg. assumption. Qed.

Lemma inner_nonneg : forall v, 0 <= tau_kern_inner profile k b d h aa v.
Proof.
  intros v. rewrite inner_sum. fold r. pose proof r_nonneg.
  apply Rmult_le_pos; [lra|]. apply rsum_nonneg. intros x Hx. apply in_map_iff in Hx.
  destruct Hx as (i & <- & _). cbv zeta. apply Rmult_le_pos; [apply Hp|].
  apply weight_nonneg. apply Rdiv_le_0_compat; [apply sqrt_pos|assumption].
Qed.

Lemma rsum_le : forall (A : Type) (f g : A -> R) l, (forall x, In x l -> f x <= g x) ->
  rsum (map f l) <= rsum (map g l).
Proof.
  unfold rsum. induction l; simpl; intros H; [lra|].
  assert (f a <= g a) by auto. assert (fold_right Rplus 0 (map f l) <= fold_right Rplus 0 (map g l)) by auto. lra.
Qed.

(** Beyond the kernel the optical depth does not increase with the distance. *)
Lemma inner_beyond : forall v v', (r <= v /\ v <= v') \/ (v <= - r /\ v' <= v) ->
  tau_kern_inner profile k b d h aa v' <= tau_kern_inner profile k b d h aa v.
Proof.
  intros v v' H. rewrite !inner_sum. fold r. pose proof r_nonneg.
  apply Rmult_le_compat_l; [lra|]. apply rsum_le. intros i Hi. apply in_seq in Hi. cbv zeta.
  apply Rmult_le_compat_r.
  - apply weight_nonneg. apply Rdiv_le_0_compat; [apply sqrt_pos|assumption].
  - apply Hp. unfold Rdiv. rewrite !Rabs_mult. apply Rmult_le_compat_r; [apply Rabs_pos|].
    assert (B1 : 0 <= INR i) by apply pos_INR.
    assert (B2 : INR i <= 8) by (replace 8 with (INR 8) by (simpl; lra); apply le_INR; lia).
    set (vv := INR i * (2 * r * / 8) - r).
    assert (- r <= vv) by (unfold vv; nra). assert (vv <= r) by (unfold vv; nra).
    destruct H as [(Ha & Hc)|(Ha & Hc)].
    + rewrite !Rabs_left1 by lra. lra.
    + rewrite !Rabs_right by lra. lra.
Qed.

Definition outer_w (vlow w : R) := tau_kern_outer profile k b d h aa vlow (vlow + w).

(** The average as an explicit sum of inner values at vlow + (a fixed list of offsets). *)
Lemma outer_mean : forall w, 0 < w ->
  exists (offs : list (R * R)),
    (forall o c, In (o, c) offs -> 0 <= o <= w /\ 0 <= c) /\ rsum (map snd offs) = 1 /\
    forall vlow, outer_w vlow w =
      rsum (map (fun oc => snd oc * tau_kern_inner profile k b d h aa (vlow + fst oc)) offs).
Proof.
  intros w Hw. unfold outer_w, tau_kern_outer.
  destruct (Rlt_dec w (b / 2)) as [Hs|Hs].
  - exists [(w / 2, 1)]. split; [|split].
    + intros o c [E|[]]. injection E as <- <-. lra.
    + unfold rsum. simpl. ring.
    + intros vlow. replace (vlow + w - vlow) with w by ring. destruct (Rlt_dec w (b / 2)); [|lra].
      unfold rsum. simpl. replace ((vlow + w + vlow) / 2) with (vlow + w / 2) by field. ring.
  - set (m := Zceil (w / (b / 2) / 2)).
    assert (Hm : (1 <= m)%Z).
    { assert (0 < m)%Z; [|lia]. apply lt_IZR. apply Rlt_le_trans with (w / (b / 2) / 2); [|apply Zceil_ub].
      repeat apply Rdiv_lt_0_compat; lra. }
    set (np := (2 * m + 1)%Z).
    assert (Hnp : 2 <= IZR np - 1).
    { unfold np. rewrite plus_IZR, mult_IZR. apply IZR_le in Hm. lra. }
    set (dv := w / (IZR np - 1)).
    assert (Hdv : 0 <= dv) by (apply Rdiv_le_0_compat; lra).
    set (cnt := Z.to_nat (np - 2)).
    assert (Hcnt : INR cnt = IZR np - 2).
    { unfold cnt. rewrite INR_IZR_INZ, Z2Nat.id by (unfold np; lia). rewrite minus_IZR. reflexivity. }
    exists ((0, / 2 / (IZR np - 1)) :: (w, / 2 / (IZR np - 1)) ::
            map (fun i => (INR i * dv, / (IZR np - 1))) (seq 1 cnt)).
    split; [|split].
    + intros o c H. destruct H as [E|[E|H]].
      * injection E as <- <-. split; [lra|]. apply Rdiv_le_0_compat; lra.
      * injection E as <- <-. split; [lra|]. apply Rdiv_le_0_compat; lra.
      * apply in_map_iff in H. destruct H as (i & E & Hi). injection E as <- <-. apply in_seq in Hi.
        assert (0 < / (IZR np - 1)) by (apply Rinv_0_lt_compat; lra).
        assert (INR i <= INR cnt) by (apply le_INR; lia).
        pose proof (pos_INR i). split; [|lra]. split; [apply Rmult_le_pos; lra|].
        unfold dv. apply Rle_trans with ((IZR np - 1) * (w / (IZR np - 1))).
        -- apply Rmult_le_compat_r; [exact Hdv|lra].
        -- apply Req_le. field. lra.
    + cbn [map snd]. rewrite map_map. cbn [snd].
      assert (S : rsum (map (fun _ : nat => / (IZR np - 1)) (seq 1 cnt)) = INR cnt * / (IZR np - 1)).
      { generalize 1%nat. generalize cnt as q. induction q; intros a; [unfold rsum; simpl; ring|].
        cbn [seq map]. unfold rsum in *. cbn [fold_right]. rewrite IHq, S_INR. ring. }
      unfold rsum in *. cbn [fold_right]. rewrite S, Hcnt. field. lra.
    + intros vlow. replace (vlow + w - vlow) with w by ring. destruct (Rlt_dec w (b / 2)); [lra|].
      fold m. fold np. fold dv. fold cnt.
      rewrite (rsum_fold nat (fun i => tau_kern_inner profile k b d h aa (INR i * dv + vlow))).
      cbn [map fst snd]. rewrite map_map. cbn [fst snd]. unfold rsum at 2. cbn [fold_right].
      fold (rsum (map (fun x => / (IZR np - 1) * tau_kern_inner profile k b d h aa (vlow + INR x * dv)) (seq 1 cnt))).
      rewrite rsum_map_scal. rewrite Rplus_0_r.
      rewrite (rsum_map_ext nat (fun i => tau_kern_inner profile k b d h aa (INR i * dv + vlow))
        (fun x => tau_kern_inner profile k b d h aa (vlow + INR x * dv))).
      * field. lra.
      * intros i _. f_equal. ring.
Qed.

Lemma outer_nonneg : forall vlow w, 0 < w -> 0 <= outer_w vlow w.
Proof.
  intros vlow w Hw. destruct (outer_mean w Hw) as (offs & Ho & _ & E). rewrite E.
  apply rsum_nonneg. intros x Hx. apply in_map_iff in Hx. destruct Hx as ((o, c) & <- & Hi).
  apply Rmult_le_pos; [apply (Ho o c Hi)|apply inner_nonneg].
Qed.

Lemma outer_beyond : forall vlow vlow' w, 0 < w ->
  (r <= vlow /\ vlow <= vlow') \/ (vlow + w <= - r /\ vlow' <= vlow) ->
  outer_w vlow' w <= outer_w vlow w.
Proof.
  intros vlow vlow' w Hw H. destruct (outer_mean w Hw) as (offs & Ho & _ & E). rewrite !E.
  apply rsum_le. intros (o, c) Hi. destruct (Ho o c Hi) as (H1 & H2). cbn [fst snd].
  apply Rmult_le_compat_l; [assumption|]. apply inner_beyond. lra.
Qed.

Lemma outer_le : forall vlow w B, 0 < w ->
  (forall v, vlow <= v <= vlow + w -> tau_kern_inner profile k b d h aa v <= B) -> outer_w vlow w <= B.
Proof.
  intros vlow w B Hw H. destruct (outer_mean w Hw) as (offs & Ho & S1 & E). rewrite E.
  apply Rle_trans with (rsum (map (fun oc : R * R => B * snd oc) offs)).
  - apply rsum_le. intros (o, c) Hi. destruct (Ho o c Hi) as (H1 & H2). cbn [fst snd].
    rewrite Rmult_comm. apply Rmult_le_compat_r; [assumption|]. apply H. lra.
  - rewrite rsum_map_scal, S1. lra.
Qed.
End Inner.

Lemma reached_dec_not : forall t v c z, ~ reached t v c z ->
  exists z', ((c <= z' < z)%Z \/ (z < z' < c)%Z) /\ v z' < t.
Proof.
  intros t v c z H.
  destruct (Z_le_gt_dec c z) as [Hc|Hc].
  - assert (G : forall m, (0 <= m)%nat ->
       (forall z', (c <= z' < c + Z.of_nat m)%Z -> t <= v z') \/
       (exists z', (c <= z' < c + Z.of_nat m)%Z /\ v z' < t)).
    { intros m _. induction m; [left; intros; lia|]. destruct IHm as [G|(z' & Hz' & L)].
      - destruct (Rlt_dec (v (c + Z.of_nat m)%Z) t).
        + right. exists (c + Z.of_nat m)%Z. split; [lia|assumption].
        + left. intros z' Hz'. destruct (Z.eq_dec z' (c + Z.of_nat m)) as [->|]; [lra|]. apply G. lia.
      - right. exists z'. split; [lia|assumption]. }
    destruct (G (Z.to_nat (z - c)) ltac:(lia)) as [G1|(z' & Hz' & L)].
    + exfalso. apply H. intros z' Hz'. apply G1. lia.
    + exists z'. split; [lia|assumption].
  - assert (G : forall m, (0 <= m)%nat ->
       (forall z', (z < z' <= z + Z.of_nat m)%Z -> t <= v z') \/
       (exists z', (z < z' <= z + Z.of_nat m)%Z /\ v z' < t)).
    { intros m _. induction m; [left; intros; lia|]. destruct IHm as [G|(z' & Hz' & L)].
      - destruct (Rlt_dec (v (z + Z.of_nat (S m))%Z) t).
        + right. exists (z + Z.of_nat (S m))%Z. split; [lia|assumption].
        + left. intros z' Hz'. destruct (Z.eq_dec z' (z + Z.of_nat (S m))) as [->|]; [lra|]. apply G. lia.
      - right. exists z'. split; [lia|assumption]. }
    destruct (G (Z.to_nat (c - z - 1)) ltac:(lia)) as [G1|(z' & Hz' & L)].
    + exfalso. apply H. intros z' Hz'. apply G1. lia.
    + exists z'. split; [lia|assumption].
Qed.

(** The abstract form: contributions which do not increase beyond a pixel below the threshold. *)
Lemma tail_bound : forall (n : nat) t v c tau t1 t2, (0 < n)%nat -> length tau = n -> 0 < t ->
  (forall z, 0 <= v z) ->
  (forall z z', in_window (Z.of_nat n) c z -> (c <= z' < z)%Z \/ (z < z' < c)%Z -> v z' < t -> v z <= v z') ->
  deposit (Z.of_nat n) v (visited t v (Z.of_nat n) c) (Some tau) = Some t1 ->
  deposit (Z.of_nat n) v (visited 0 v (Z.of_nat n) c) (Some tau) = Some t2 ->
  forall j, nth j t2 0 - t < nth j t1 0 <= nth j t2 0.
Proof.
  intros n t v c tau t1 t2 Hn Hl Ht Hv Hm E1 E2 j.
  destruct (two_loops n t v c tau Hn Hl) as (a1 & F1 & L1 & N1 & O1). rewrite E1 in F1. injection F1 as <-.
  destruct (two_loops n 0 v c tau Hn Hl) as (a2 & F2 & L2 & N2 & O2). rewrite E2 in F2. injection F2 as <-.
  destruct (le_lt_dec n j) as [Hj|Hj]; [rewrite !nth_overflow by lia; lra|].
  set (N := Z.of_nat n) in *.
  (* is j covered by the window? *)
  set (z := (c - N / 2 + (Z.of_nat j - (c - N / 2)) mod N)%Z).
  assert (HN : (0 < N)%Z) by (unfold N; lia).
  assert (Hz : (z mod N = Z.of_nat j)%Z).
  { unfold z. rewrite Z.add_mod_idemp_r by lia.
    replace (c - N / 2 + (Z.of_nat j - (c - N / 2)))%Z with (Z.of_nat j) by lia.
    apply Z.mod_small. unfold N. lia. }
  assert (Hr : (c - N / 2 <= z < c - N / 2 + N)%Z).
  { unfold z. pose proof (Z.mod_pos_bound (Z.of_nat j - (c - N / 2)) N HN). lia. }
  destruct (Z_lt_ge_dec z (c + N / 2)) as [W|W].
  - assert (Hw : in_window N c z) by (unfold in_window; lia).
    destruct (N1 z Hw) as (R1 & U1). destruct (N2 z Hw) as (R2 & U2).
    rewrite Hz, Nat2Z.id in *.
    rewrite R2 by (intros z' _; apply Hv).
    assert (D : reached t v c z \/ ~ reached t v c z).
    { destruct (Rle_dec 0 (nth j t1 0)); destruct (in_dec Z.eq_dec z (visited t v N c)) as [I|I];
        rewrite in_visited in I by lia; tauto. }
    destruct D as [D|D]; [rewrite R1 by assumption; lra|].
    rewrite U1 by assumption. destruct (reached_dec_not _ _ _ _ D) as (z' & Hz' & Lz').
    pose proof (Hm z z' Hw Hz' Lz'). pose proof (Hv z). lra.
  - assert (Hnone : forall z', in_window N c z' -> (z' mod N)%Z <> Z.of_nat j).
    { intros z' Hw E. unfold in_window in Hw.
      pose proof (Z.div_mod z' N ltac:(lia)). pose proof (Z.div_mod z N ltac:(lia)).
      assert (z' / N = z / N)%Z by nia. nia. }
    rewrite O1, O2 by assumption. lra.
Qed.

Lemma C11_tail_aux : forall L k (n : nat) dr2 dens ppos pvel temp smooth tau t1 t2,
  (0 < n)%nat -> length tau = n -> takes_part k (vbox L / velfac L) dr2 smooth ->
  0 < tautail L -> 0 <= sigma_a L -> 0 < bfac L -> 0 < temp -> 0 < velfac L -> 0 < vbox L ->
  0 <= dens -> 0 < smooth -> (k = Voronoi -> dr2 <= smooth) ->
  let b := bfac L * sqrt temp in
  bell (fun u => profile u (voigt_fac L / b)) ->
  let vel := particle_vel L k dr2 ppos pvel smooth in
  let bin := vbox L / INR n in
  let c := Zfloor (vel / bin) in
  let edge := velfac L * half_extent k dr2 smooth in
  (forall z, in_window (Z.of_nat n) c z ->
     - edge < IZR (z + 1) * bin - vel -> IZR z * bin - vel < edge ->
     tautail L <= pixel_tau profile L k n dr2 dens vel temp smooth z) ->
  add_tau_particle profile L k (Z.of_nat n) dr2 dens ppos pvel temp smooth tau = Some t1 ->
  add_tau_particle profile (with_tail L 0) k (Z.of_nat n) dr2 dens ppos pvel temp smooth tau = Some t2 ->
  forall j, nth j t2 0 - tautail L < nth j t1 0 <= nth j t2 0.
Proof.
  intros L k n dr2 dens ppos pvel temp smooth tau t1 t2 Hn Hl T Ht Hsig Hbf Htemp Hvf Hvb Hdens Hsm Hvor
    b Hbell vel bin c edge Hin E1 E2.
  assert (Hb : 0 < b) by (apply Rmult_lt_0_compat; [assumption|apply sqrt_lt_R0; assumption]).
  assert (Hbin : 0 < bin) by (apply Rdiv_lt_0_compat; [assumption|apply lt_0_INR; lia]).
  rewrite tau_unfold in E1 by assumption. fold vel in E1. fold bin in E1. fold c in E1.
  rewrite tau_unfold in E2 by assumption.
  change (pixel_tau profile (with_tail L 0)) with (pixel_tau profile L) in E2.
  change (particle_vel (with_tail L 0)) with (particle_vel L) in E2.
  change (vbox (with_tail L 0)) with (vbox L) in E2.
  change (tautail (with_tail L 0)) with 0 in E2. fold vel in E2. fold bin in E2. fold c in E2.
  set (vd := match k with Voronoi => velfac L * dr2 | _ => velfac L * dr2 * velfac L end).
  set (amp := sigma_a L / sqrt PI * (light_kms / b) * dens / velfac L).
  assert (Hsq : 0 < sqrt PI) by (apply sqrt_lt_R0; apply PI_RGT_0).
  assert (Hamp : 0 <= amp).
  { unfold amp. apply Rdiv_le_0_compat; [|assumption]. apply Rmult_le_pos; [|assumption].
    apply Rmult_le_pos; [apply Rdiv_le_0_compat; assumption|].
    apply Rdiv_le_0_compat; [unfold light_kms; lra|assumption]. }
  assert (Hvs : 0 < velfac L * smooth) by (apply Rmult_lt_0_compat; assumption).
  assert (Hvd : k = Voronoi -> vd <= velfac L * smooth).
  { intros Hk. unfold vd. rewrite Hk. apply Rmult_le_compat_l; [lra|auto]. }
  assert (Epx : forall z, pixel_tau profile L k n dr2 dens vel temp smooth z =
     amp * outer_w k b vd (velfac L * smooth) (voigt_fac L / b) (IZR z * bin - vel) bin).
  { intros z. unfold pixel_tau, outer_w, amp. fold b bin vd. unfold Rdiv. ring. }
  (* the kernel half extent in velocity is the edge, or 0 in the degenerate Voronoi cases *)
  assert (Hr : m_vhigh k vd (velfac L * smooth) <= edge).
  { unfold edge, vd. destruct k; simpl in *.
    1,2,4:
      destruct (Rlt_dec (velfac L * dr2 * velfac L) (velfac L * smooth * (velfac L * smooth)));
      [|apply Rmult_le_pos; [lra|apply sqrt_pos]];
      replace (velfac L * smooth * (velfac L * smooth) - velfac L * dr2 * velfac L)
        with ((velfac L * velfac L) * (smooth * smooth - dr2)) by ring;
      rewrite sqrt_mult by nra; rewrite sqrt_square by lra; lra.
    specialize (Hvor eq_refl).
    assert (0 <= velfac L * ((smooth - dr2) / 2)) by (apply Rmult_le_pos; lra).
    destruct (Rlt_dec 0 (velfac L * dr2)); [|lra]. destruct (Rlt_dec 0 (velfac L * smooth)); lra. }
  eapply (tail_bound n (tautail L) (pixel_tau profile L k n dr2 dens vel temp smooth) c tau); try eassumption.
  - intros z. rewrite Epx. apply Rmult_le_pos; [assumption|]. apply outer_nonneg; assumption.
  - intros z z' Hw Hz' Hlt.
    assert (Hw' : in_window (Z.of_nat n) c z').
    { unfold in_window in *. pose proof (Z.div_pos (Z.of_nat n) 2 ltac:(lia) ltac:(lia)). lia. }
    assert (Hout : ~ (- edge < IZR (z' + 1) * bin - vel /\ IZR z' * bin - vel < edge)).
    { intros (A & B). specialize (Hin z' Hw' A B). lra. }
    rewrite plus_IZR in Hout.
    assert (Hedge : 0 <= edge).
    { unfold edge. apply Rmult_le_pos; [lra|]. apply half_extent_nonneg. assumption. }
    (* pixel c starts at or before the particle, pixel c+1 after it *)
    assert (C1 : IZR c * bin <= vel).
    { assert (Q := Zfloor_lb (vel / bin)). fold c in Q.
      assert (IZR c * bin <= vel / bin * bin) by (apply Rmult_le_compat_r; lra).
      replace (vel / bin * bin) with vel in H by (field; lra). assumption. }
    assert (C2 : vel < (IZR c + 1) * bin).
    { assert (Q := Zfloor_ub (vel / bin)). fold c in Q.
      assert (vel / bin * bin < (IZR c + 1) * bin) by (apply Rmult_lt_compat_r; lra).
      replace (vel / bin * bin) with vel in H by (field; lra). assumption. }
    rewrite !Epx. apply Rmult_le_compat_l; [assumption|].
    apply outer_beyond; try assumption.
    destruct Hz' as [Hz'|Hz'].
    + left. assert (IZR z' <= IZR z) by (apply IZR_le; lia).
      assert (IZR c <= IZR z') by (apply IZR_le; lia).
      assert (IZR z' * bin <= IZR z * bin) by (apply Rmult_le_compat_r; lra).
      assert (IZR c * bin <= IZR z' * bin) by (apply Rmult_le_compat_r; lra).
      split; [|lra]. apply Rle_trans with edge; [assumption|].
      apply Rnot_lt_le. intros B. apply Hout. split; [|assumption].
      lra.
    + right. assert (IZR z <= IZR z') by (apply IZR_le; lia).
      assert (IZR (z' + 1) <= IZR c) by (apply IZR_le; lia). rewrite plus_IZR in H0.
      assert (IZR z * bin <= IZR z' * bin) by (apply Rmult_le_compat_r; lra).
      assert ((IZR z' + 1) * bin <= IZR c * bin) by (apply Rmult_le_compat_r; lra).
      split; [|lra]. apply Rle_trans with (- edge); [|lra].
      apply Rnot_lt_le. intros B. apply Hout. split; [lra|]. lra.
Qed.

(** ** C52 *)
Lemma voronoi_zero_start : forall L (n : nat) dens ppos pvel temp high tau,
  (0 < n)%nat -> length tau = n ->
  add_tau_particle profile L Voronoi (Z.of_nat n) 0 dens ppos pvel temp high tau = Some tau.
Proof.
  intros L n dens ppos pvel temp high tau Hn Hl.
  destruct (takes_part_dec Voronoi (vbox L / velfac L) 0 high) as [T|T]; [|apply tau_skip; assumption].
  assert (In0 : forall b aa h v, tau_kern_inner profile Voronoi b (velfac L * 0) h aa v = 0).
  { intros. rewrite inner_sum. replace (m_vhigh Voronoi (velfac L * 0) h) with 0.
    - unfold Rdiv. ring.
    - simpl. destruct (Rlt_dec 0 (velfac L * 0)); [lra|reflexivity]. }
  assert (Z0 : forall vel z, pixel_tau profile L Voronoi n 0 dens vel temp high z = 0).
  { intros vel z. unfold pixel_tau.
    assert (O : forall b aa h lo hi, tau_kern_outer profile Voronoi b (velfac L * 0) h aa lo hi = 0).
    { intros. unfold tau_kern_outer. destruct (Rlt_dec _ _); [apply In0|].
      rewrite (rsum_fold nat (fun i => tau_kern_inner profile Voronoi b (velfac L * 0) h aa
         (INR i * ((hi - lo) / (IZR (2 * Zceil ((hi - lo) / (b / 2) / 2) + 1) - 1)) + lo))).
      rewrite rsum_zero.
      - rewrite !In0. unfold Rdiv. ring.
      - intros x Hx. apply in_map_iff in Hx. destruct Hx as (i & <- & _). apply In0. }
    rewrite O. unfold Rdiv. ring. }
  rewrite tau_unfold by assumption.
  match goal with |- context [deposit _ ?v ?zs _] =>
    destruct (deposit_spec n v zs tau Hn Hl) as (a & E & La & N) end.
  rewrite E. f_equal. apply (nth_ext a tau 0 0); [congruence|].
  intros i _. rewrite N, rsum_zero; [ring|].
  intros x Hx. apply in_map_iff in Hx. destruct Hx as (z & <- & _). apply Z0.
Qed.
End Tau.

(** ** The tail cut-off inside the kernel: thermal lines narrower than the quadrature spacing *)
Definition gauss (u a : R) : R := exp (- (u * u)).

Lemma gauss_bell : forall a, bell (fun u => gauss u a).
Proof.
  intros a. split.
  - intros u. left. apply exp_pos.
  - intros u v H. unfold gauss.
    assert (u * u <= v * v).
    { rewrite <- (Rabs_pos_eq (u * u)) by nra. rewrite <- (Rabs_pos_eq (v * v)) by nra.
      rewrite !Rabs_mult. apply Rmult_le_compat; try apply Rabs_pos; assumption. }
    destruct (Req_dec (v * v) (u * u)) as [->|]; [lra|]. left. apply exp_increasing. lra.
Qed.

Lemma exp16 : exp (-16) <= / 65536.
Proof.
  assert (E1 : 2 <= exp 1) by (pose proof (exp_ineq1 1 ltac:(lra)); lra).
  assert (E : exp 16 = exp 1 ^ 16).
  { assert (G : forall m, exp (INR m) = exp 1 ^ m).
    { induction m; [simpl; apply exp_0|]. rewrite S_INR, exp_plus, IHm. simpl. ring. }
    rewrite <- (G 16%nat). f_equal. simpl. lra. }
  replace (-16) with (- (16)) by lra. rewrite exp_Ropp. apply Rinv_le_contravar; [lra|]. rewrite E.
  apply Rle_trans with (2 ^ 16); [lra|]. apply pow_incr. lra.
Qed.

Definition narrow_line : line := mkAbs (3 / 8 / PI) (sqrt PI / light_kms) 1 0 1 256.

Lemma narrow_px : forall z, pixel_tau gauss narrow_line TopHat 64 0 1 0 1 64 z =
  outer_w gauss TopHat 1 0 64 0 (IZR z * 4) 4.
Proof.
  intros z. unfold pixel_tau, outer_w. cbn [narrow_line tautail sigma_a bfac voigt_fac velfac vbox].
  assert (E64 : 256 / INR 64 = 4) by (replace (INR 64) with 64 by (simpl; lra); field).
  rewrite E64. rewrite sqrt_1. rewrite Rmult_1_r. rewrite Rminus_0_r.
  replace (1 * 0 * 1) with 0 by ring. rewrite !Rmult_1_l.
  replace (0 / 1) with 0 by field.
  assert (0 < sqrt PI) by (apply sqrt_lt_R0, PI_RGT_0).
  replace (sqrt PI / light_kms / sqrt PI * (light_kms / 1) * 1) with 1 by (unfold light_kms; field; lra).
  field. unfold light_kms. split; lra.
Qed.

Lemma narrow_vhigh : m_vhigh TopHat 0 64 = 64.
Proof.
  simpl. destruct (Rlt_dec 0 (64 * 64)); [|lra]. rewrite Rminus_0_r. apply sqrt_square. lra.
Qed.

Lemma narrow_inner : forall v, tau_kern_inner gauss TopHat 1 0 64 0 v =
  16 * (3 / 4 / PI * rsum (map (fun i => gauss (INR i * 16 - 64 - v) 0) (seq 1 7))).
Proof.
  intros v. rewrite inner_sum, narrow_vhigh.
  replace (2 * 64 / 8) with 16 by field. f_equal.
  rewrite <- rsum_map_scal. apply rsum_map_ext. intros i _. cbv zeta. cbn [tau_weight].
  unfold Rdiv at 1. rewrite Rinv_1. rewrite Rmult_1_r. ring.
Qed.

(** The mean over a bin is at least 1/16 of the value at either end. *)
Lemma outer_ends : forall vlow, 
  tau_kern_inner gauss TopHat 1 0 64 0 vlow / 16 <= outer_w gauss TopHat 1 0 64 0 vlow 4 /\
  tau_kern_inner gauss TopHat 1 0 64 0 (vlow + 4) / 16 <= outer_w gauss TopHat 1 0 64 0 vlow 4.
Proof.
  intros vlow. unfold outer_w, tau_kern_outer. replace (vlow + 4 - vlow) with 4 by ring.
  destruct (Rlt_dec 4 (1 / 2)); [lra|].
  replace (4 / (1 / 2) / 2) with (IZR 4) by (simpl; field). rewrite Zceil_IZR.
  change (2 * 4 + 1)%Z with 9%Z.
  assert (P : forall v, 0 <= tau_kern_inner gauss TopHat 1 0 64 0 v).
  { intros v. apply inner_nonneg; try lra; try discriminate. apply gauss_bell. }
  rewrite (rsum_fold nat (fun i => tau_kern_inner gauss TopHat 1 0 64 0 (INR i * (4 / (9 - 1)) + vlow))).
  match goal with |- context [rsum ?l] => assert (S : 0 <= rsum l) end.
  { apply rsum_nonneg. intros x Hx. apply in_map_iff in Hx. destruct Hx as (i & <- & _). apply P. }
  pose proof (P vlow). pose proof (P (vlow + 4)). split; lra.
Qed.

Lemma w0_pos : 0 < 3 / 4 / PI.
Proof. pose proof PI_RGT_0. apply Rdiv_lt_0_compat; lra. Qed.

Lemma inner_peak : forall (i : nat), In i (seq 1 7) ->
  16 * (3 / 4 / PI) <= tau_kern_inner gauss TopHat 1 0 64 0 (INR i * 16 - 64).
Proof.
  intros i Hi. rewrite narrow_inner. apply Rmult_le_compat_l; [lra|].
  rewrite <- (Rmult_1_r (3 / 4 / PI)) at 1. apply Rmult_le_compat_l; [left; apply w0_pos|].
  apply in_split in Hi. destruct Hi as (l1 & l2 & ->).
  rewrite map_app, rsum_app. cbn [map]. unfold rsum at 2. cbn [fold_right].
  match goal with |- _ <= rsum ?a + (_ + fold_right Rplus 0 ?b) =>
    assert (0 <= rsum a) by (apply rsum_nonneg; intros x Hx; apply in_map_iff in Hx; destruct Hx as (q & <- & _); left; apply exp_pos);
    assert (0 <= rsum b) by (apply rsum_nonneg; intros x Hx; apply in_map_iff in Hx; destruct Hx as (q & <- & _); left; apply exp_pos);
    fold (rsum b)
  end.
  assert (G : gauss (INR i * 16 - 64 - (INR i * 16 - 64)) 0 = 1).
  { unfold gauss. replace (- ((INR i * 16 - 64 - (INR i * 16 - 64)) * (INR i * 16 - 64 - (INR i * 16 - 64)))) with 0 by ring.
    apply exp_0. }
  rewrite G. lra.
Qed.

Lemma inner_gap : forall v, 4 <= v <= 8 -> tau_kern_inner gauss TopHat 1 0 64 0 v <= 3 / 16 / PI.
Proof.
  intros v Hv. rewrite narrow_inner.
  assert (B : forall i, In i (seq 1 7) -> gauss (INR i * 16 - 64 - v) 0 <= / 65536).
  { intros i Hi. apply Rle_trans with (exp (-16)); [|apply exp16].
    assert (16 <= (INR i * 16 - 64 - v) * (INR i * 16 - 64 - v)).
    { assert (D : 4 <= v - (INR i * 16 - 64) \/ v - (INR i * 16 - 64) <= -4).
      { destruct (le_lt_dec i 4) as [H|H].
        - left. apply le_INR in H. simpl in H. lra.
        - right. apply le_INR in H. simpl in H. lra. }
      nra. }
    unfold gauss. destruct (Req_dec ((INR i * 16 - 64 - v) * (INR i * 16 - 64 - v)) 16) as [E|]; [rewrite E; right; f_equal; lra|].
    left. apply exp_increasing. lra. }
  assert (S : rsum (map (fun i => gauss (INR i * 16 - 64 - v) 0) (seq 1 7)) <= 7 * / 65536).
  { apply Rle_trans with (rsum (map (fun _ : nat => / 65536) (seq 1 7))); [apply rsum_le; exact B|].
    unfold rsum. simpl. lra. }
  pose proof w0_pos.
  apply Rle_trans with (16 * (3 / 4 / PI * (7 * / 65536))).
  - apply Rmult_le_compat_l; [lra|]. apply Rmult_le_compat_l; lra.
  - replace (3 / 16 / PI) with (3 / 4 / PI * / 4) by (field; apply PI_neq0).
    assert (16 * (7 * / 65536) <= / 4) by lra. nra.
Qed.

Lemma C11_refuted_aux : exists t1 t2,
  add_tau_particle gauss narrow_line TopHat 64 0 1 0 0 1 64 (repeat 0 64) = Some t1 /\
  add_tau_particle gauss (with_tail narrow_line 0) TopHat 64 0 1 0 0 1 64 (repeat 0 64) = Some t2 /\
  nth 3 t1 0 = 0 /\ nth 3 t2 0 >= 2 * tautail narrow_line.
Proof.
  assert (T : takes_part TopHat (vbox narrow_line / velfac narrow_line) 0 64) by (simpl; lra).
  assert (Ev : particle_vel narrow_line TopHat 0 0 0 64 = 0) by (unfold particle_vel; simpl; ring).
  assert (Ec : Zfloor (0 / (vbox narrow_line / INR 64)) = 0%Z).
  { unfold Rdiv. rewrite Rmult_0_l. exact (Zfloor_IZR 0). }
  destruct (C10_pixels_aux gauss narrow_line TopHat 64 0 1 0 0 1 64 (repeat 0 64)
     ltac:(lia) (repeat_length _ _) T) as (t1 & E1 & _ & N1 & _).
  destruct (C10_pixels_aux gauss (with_tail narrow_line 0) TopHat 64 0 1 0 0 1 64 (repeat 0 64)
     ltac:(lia) (repeat_length _ _) T) as (t2 & E2 & _ & N2 & _).
  exists t1, t2. split; [exact E1|]. split; [exact E2|].
  rewrite Ev, Ec in N1.
  change (particle_vel (with_tail narrow_line 0)) with (particle_vel narrow_line) in N2.
  change (vbox (with_tail narrow_line 0)) with (vbox narrow_line) in N2.
  change (pixel_tau gauss (with_tail narrow_line 0)) with (pixel_tau gauss narrow_line) in N2.
  change (tautail (with_tail narrow_line 0)) with 0 in N2.
  rewrite Ev, Ec in N2.
  assert (W3 : in_window (Z.of_nat 64) 0 3) by (unfold in_window; change (Z.of_nat 64 / 2)%Z with 32%Z; lia).
  destruct (N1 3%Z W3) as (_ & U1). destruct (N2 3%Z W3) as (R2 & _).
  change (Z.to_nat (3 mod Z.of_nat 64)) with 3%nat in *. rewrite nth_repeat0 in *.
  split.
  - apply U1. intros H. specialize (H 1%Z ltac:(lia)).
    rewrite narrow_px in H.
    assert (outer_w gauss TopHat 1 0 64 0 (1 * 4) 4 <= 3 / 16 / PI).
    { apply outer_le; try lra. intros v Hv. apply inner_gap. lra. }
    cbn [narrow_line tautail] in H. pose proof w0_pos as W0.
    assert (3 / 16 / PI = 3 / 4 / PI * / 4) by (field; apply PI_neq0).
    assert (3 / 8 / PI = 3 / 4 / PI * / 2) by (field; apply PI_neq0).
    lra.
  - rewrite R2.
    + rewrite narrow_px. destruct (outer_ends (3 * 4)) as (_ & O).
      pose proof (inner_peak 5 ltac:(simpl; tauto)) as P.
      replace (INR 5 * 16 - 64) with (3 * 4 + 4) in P by (simpl; lra).
      cbn [narrow_line tautail].
      assert (2 * (3 / 8 / PI) = 3 / 4 / PI) by (field; apply PI_neq0). lra.
    + intros z' _. rewrite narrow_px. apply outer_nonneg; try lra; try discriminate. apply gauss_bell.
Qed.

(** ** The mean over a bin is a trapezium rule *)
Lemma C13_bin_mean_aux : forall profile k b d h aa lo hi, 0 < b -> b / 2 <= hi - lo ->
  exists m : nat, (1 <= m)%nat /\ (hi - lo) / INR (2 * m) <= b / 2 /\
    tau_kern_outer profile k b d h aa lo hi =
    trapezium (tau_kern_inner profile k b d h aa) lo hi (2 * m) / (hi - lo).
Proof.
  intros profile k b d h aa lo hi Hb Hw. set (w := hi - lo) in *.
  set (mz := Zceil (w / (b / 2) / 2)).
  assert (U : w / (b / 2) / 2 <= IZR mz) by apply Zceil_ub.
  assert (Hm : (1 <= mz)%Z).
  { assert (0 < mz)%Z; [|lia]. apply lt_IZR. eapply Rlt_le_trans; [|exact U].
    repeat apply Rdiv_lt_0_compat; lra. }
  exists (Z.to_nat mz).
  assert (E2 : INR (2 * Z.to_nat mz) = 2 * IZR mz).
  { rewrite mult_INR. rewrite (INR_IZR_INZ (Z.to_nat mz)), Z2Nat.id by lia. simpl. ring. }
  apply IZR_le in Hm. split; [apply IZR_le in Hm || idtac; apply le_IZR in Hm; lia|]. split.
  - rewrite E2. apply (Rmult_le_reg_r (2 * IZR mz)); [lra|].
    replace (w / (2 * IZR mz) * (2 * IZR mz)) with w by (field; lra).
    apply (Rmult_le_compat_r b) in U; [|lra].
    replace (w / (b / 2) / 2 * b) with w in U by (field; lra). lra.
  - unfold tau_kern_outer. fold w. destruct (Rlt_dec w (b / 2)); [lra|]. fold mz.
    rewrite plus_IZR, mult_IZR. replace (2 * IZR mz + 1 - 1) with (2 * IZR mz) by ring.
    rewrite (rsum_fold nat (fun i => tau_kern_inner profile k b d h aa (INR i * (w / (2 * IZR mz)) + lo))).
    unfold trapezium. fold w. rewrite E2.
    replace (2 * Z.to_nat mz - 1)%nat with (Z.to_nat (2 * mz + 1 - 2)).
    2:{ apply le_IZR in Hm. lia. }
    rewrite (rsum_map_ext nat (fun i => tau_kern_inner profile k b d h aa (INR i * (w / (2 * IZR mz)) + lo))
        (fun i => tau_kern_inner profile k b d h aa (lo + INR i * (w / (2 * IZR mz))))).
    + field. split; lra.
    + intros i _. f_equal. ring.
Qed.

Lemma C13_narrow_bin_aux : forall profile k b d h aa lo hi, hi - lo < b / 2 ->
  tau_kern_outer profile k b d h aa lo hi = tau_kern_inner profile k b d h aa ((lo + hi) / 2).
Proof.
  intros. unfold tau_kern_outer. destruct (Rlt_dec _ _); [|lra]. f_equal. field.
Qed.

(** ** A particle meeting all hypotheses of C11 *)
Lemma inner_pos_gauss : forall b d h aa v, d < h * h -> 0 < tau_kern_inner gauss TopHat b d h aa v.
Proof.
  intros b d h aa v Hd. rewrite inner_sum. simpl m_vhigh. destruct (Rlt_dec d (h * h)); [|lra].
  assert (0 < sqrt (h * h - d)) by (apply sqrt_lt_R0; lra).
  apply Rmult_lt_0_compat; [lra|].
  assert (G : forall l, l <> [] -> 0 < rsum (map (fun i => let vv := INR i * (2 * sqrt (h * h - d) / 8) - sqrt (h * h - d) in
     gauss ((vv - v) / b) aa * tau_weight TopHat (sqrt (d + vv * vv) / h)) l)).
  { induction l as [|a l IH]; intros Hl; [congruence|]. cbn [map]. unfold rsum. cbn [fold_right].
    fold (rsum (map (fun i => let vv := INR i * (2 * sqrt (h * h - d) / 8) - sqrt (h * h - d) in
     gauss ((vv - v) / b) aa * tau_weight TopHat (sqrt (d + vv * vv) / h)) l)).
    assert (P : 0 < gauss ((INR a * (2 * sqrt (h * h - d) / 8) - sqrt (h * h - d) - v) / b) aa * (3 / 4 / PI))
      by (apply Rmult_lt_0_compat; [apply exp_pos|apply w0_pos]).
    cbn [tau_weight] in *. destruct l; [unfold rsum; simpl; lra|]. specialize (IH ltac:(discriminate)). cbv zeta in *. lra. }
  apply G. discriminate.
Qed.

Lemma C11_example_aux : exists L,
  0 < tautail L /\ 0 <= sigma_a L /\ 0 < bfac L /\ 0 < velfac L /\ 0 < vbox L /\
  takes_part TopHat (vbox L / velfac L) 0 1 /\
  (forall z, in_window 64 (Zfloor (particle_vel L TopHat 0 2 0 1 / (vbox L / INR 64))) z ->
     - (velfac L * half_extent TopHat 0 1) < IZR (z + 1) * (vbox L / INR 64) - particle_vel L TopHat 0 2 0 1 ->
     IZR z * (vbox L / INR 64) - particle_vel L TopHat 0 2 0 1 < velfac L * half_extent TopHat 0 1 ->
     tautail L <= pixel_tau gauss L TopHat 64 0 1 (particle_vel L TopHat 0 2 0 1) 1 1 z).
Proof.
  set (L0 := mkAbs 1 1 20 0 1 256).
  set (p := pixel_tau gauss L0 TopHat 64 0 1 2 1 1 0).
  assert (Hp : 0 < p).
  { unfold p, pixel_tau. cbn [L0 tautail sigma_a bfac voigt_fac velfac vbox]. rewrite sqrt_1.
    assert (E64 : 256 / INR 64 = 4) by (replace (INR 64) with 64 by (simpl; lra); field). rewrite E64.
    assert (0 < sqrt PI) by (apply sqrt_lt_R0, PI_RGT_0).
    rewrite C13_narrow_bin_aux by lra.
    apply Rdiv_lt_0_compat; [|lra]. apply Rmult_lt_0_compat; [|apply inner_pos_gauss; lra].
    apply Rmult_lt_0_compat; [|lra]. apply Rmult_lt_0_compat; [apply Rdiv_lt_0_compat; lra|].
    apply Rdiv_lt_0_compat; [unfold light_kms; lra|lra]. }
  exists (with_tail L0 p).
  change (velfac (with_tail L0 p)) with 1. change (vbox (with_tail L0 p)) with 256.
  change (tautail (with_tail L0 p)) with p. change (sigma_a (with_tail L0 p)) with 1.
  change (bfac (with_tail L0 p)) with 20.
  change (pixel_tau gauss (with_tail L0 p)) with (pixel_tau gauss L0).
  assert (Ev : particle_vel (with_tail L0 p) TopHat 0 2 0 1 = 2) by (unfold particle_vel; simpl; ring).
  rewrite Ev.
  assert (E64 : 256 / INR 64 = 4) by (replace (INR 64) with 64 by (simpl; lra); field). rewrite E64.
  repeat (split; [solve [lra | simpl; lra]|]).
  intros z _ H1 H2. simpl half_extent in *.
  replace (1 * 1 - 0) with 1 in * by ring. rewrite sqrt_1 in *. rewrite plus_IZR in H1.
  assert (z = 0%Z).
  { assert (-1 < z)%Z by (apply lt_IZR; lra). assert (z < 1)%Z by (apply lt_IZR; lra). lia. }
  subst z. apply Rle_refl.
Qed.
