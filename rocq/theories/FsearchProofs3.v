(** Proofs about the particle search in floating point: the properties. *)
From Coq Require Import ZArith List Bool Lia Lra Reals Psatz Sorting.Sorted Permutation.
From Flocq Require Import Core.
From Verif Require Import Containers ContainersProofs FloatModel FloatSpec FloatProofs FloatProofs2 FsearchModel FsearchSpec FsearchProofs FsearchProofs2.
Import ListNotations.
Local Open Scope R_scope.

(** ** Exact distances *)

Lemma fd_periodic : forall L a b, 0 < L -> inside L a -> inside L b -> periodic_distance L a b (fd L a b).
Proof.
  intros L a b LP A B. split.
  - destruct (fd_cases L a b A B) as (F0 & _ & [(E & O)|[(E & O)|[(E & O)|(E & O)]]]); rewrite E; unfold inside in *.
    + exists 0%Z. rewrite Rabs_pos_eq; lra.
    + exists 0%Z. rewrite Rabs_left1; lra.
    + exists (-1)%Z. rewrite Rabs_left1; lra.
    + exists 1%Z. rewrite Rabs_pos_eq; lra.
  - intros k. unfold fd. assert (T : Rabs (a - b) <= L) by (unfold inside in *; apply Rabs_le; lra).
    destruct (Z.eq_dec k 0) as [-> |N].
    + replace (a - b + 0 * L) with (a - b) by lra. apply Rmin_l.
    + apply Rle_trans with (L - Rabs (a - b)); [apply Rmin_r|].
      assert (K : (k <= -1 \/ 1 <= k)%Z) by lia. destruct K as [K|K]; apply IZR_le in K; unfold Rabs in *; destruct (Rcase_abs (a - b)); destruct (Rcase_abs (a - b + IZR k * L)); nra.
Qed.

Lemma periodic_unique : forall L a b d d', periodic_distance L a b d -> periodic_distance L a b d' -> d = d'.
Proof. intros L a b d d' ((k & E) & H) ((k' & E') & H'). specialize (H k'). specialize (H' k). lra. Qed.

Definition true2 (L : R) (p : particle) (l : sightline) : R :=
  fd L (line_first l p) (line_key l) * fd L (line_first l p) (line_key l) + fd L (line_second l p) (line_key2 l) * fd L (line_second l p) (line_key2 l).

Lemma good_inside : forall L p l, good_particle L p -> good_line L l ->
  inside L (line_first l p) /\ inside L (line_key l) /\ inside L (line_second l p) /\ inside L (line_key2 l).
Proof.
  intros L p l (Px & Py & Pz) (Hax & Lx & Ly & Lz).
  unfold line_first, line_key, line_second, line_key2.
  destruct (l_axis l =? 1)%Z; destruct (l_axis l =? 3)%Z; auto.
Qed.

Lemma transverse_true : forall L p l, 0 < L -> good_particle L p -> good_line L l -> transverse_distance L p l (sqrt (true2 L p l)).
Proof.
  intros L p l LP (Px & Py & Pz) (Hax & Lx & Ly & Lz). unfold transverse_distance, true2, line_first, line_key, line_second, line_key2.
  eexists; eexists; split; [reflexivity|].
  destruct Hax as [Hax|[Hax|Hax]]; rewrite Hax; cbn [Z.eqb Pos.eqb]; auto 6 using fd_periodic.
Qed.

Lemma transverse_unique : forall L p l d d', transverse_distance L p l d -> transverse_distance L p l d' -> d = d'.
Proof.
  intros L p l d d' (u & v & -> & H) (u' & v' & -> & H').
  assert (u = u' /\ v = v') as [-> ->]; auto.
  destruct H as [(A & U & V)|[(A & U & V)|(A & U & V)]];
  destruct H' as [(A' & U' & V')|[(A' & U' & V')|(A' & U' & V')]]; try congruence;
  split; eapply periodic_unique; eauto.
Qed.

Lemma true2_pos : forall L p l, 0 <= true2 L p l.
Proof. intros L p l. unfold true2. nra. Qed.

(** ** One pair *)

Lemma p21 : 2 ^ 21 = 2097152. Proof. simpl. lra. Qed.
Lemma p23 : 2 ^ 23 = 8388608. Proof. simpl. lra. Qed.
Lemma p20 : 2 ^ 20 = 1048576. Proof. simpl. lra. Qed.
Lemma p47 : 2 ^ 47 = 140737488355328. Proof. simpl. lra. Qed.

Lemma square32 : forall L h, / 2 ^ 40 <= L -> 0 <= h ->
  - (h * h / 16777216 + L * L / 1152921504606846976) <= s32 (h * h) - h * h <= h * h / 16777216 + L * L / 1152921504606846976.
Proof.
  intros L h H P. assert (X : Rabs (h * h) <= h * h) by (rewrite Rabs_pos_eq; nra).
  exact (abs_bounds _ _ (area32 L _ _ H X)).
Qed.

Lemma value_near : forall L p l, / 2 ^ 40 <= L -> good_particle L p -> good_line L l ->
  - (L * L / 140737488355328) <= calc_dr2 L (line_first l p - line_key l) (line_second l p - line_key2 l) - true2 L p l <= L * L / 140737488355328.
Proof.
  intros L p l H P Q. destruct (good_inside L p l P Q) as (I1 & I2 & I3 & I4). unfold true2. now apply calc_near.
Qed.

Lemma reported_complete : forall L p l, / 2 ^ 40 <= L -> 0 < p_h p -> 2 * p_h p + L / 2 ^ 20 <= L -> good_particle L p -> good_line L l ->
  clearly_near L p l -> exists v, reported L p l v.
Proof.
  intros L p l H HP HL P Q (d & T & D). pose proof (box_pos L H) as LP. rewrite p20 in HL. rewrite p21 in D.
  rewrite (transverse_unique _ _ _ _ _ T (transverse_true L p l LP P Q)) in D.
  destruct (good_inside L p l P Q) as (I1 & I2 & I3 & I4).
  pose proof (value_near L p l H P Q) as V. pose proof (square32 L (p_h p) H ltac:(lra)) as S32.
  pose proof (true2_pos L p l) as TP. pose proof (sqrt_sqrt _ TP) as SS. pose proof (sqrt_pos (true2 L p l)) as SP.
  destruct (fd_cases L _ _ I1 I2) as (F0 & F1 & _). destruct (fd_cases L _ _ I3 I4) as (G0 & G1 & _).
  set (s := sqrt (true2 L p l)) in *. clearbody s.
  assert (SF : fd L (line_first l p) (line_key l) <= s) by (unfold true2 in SS; nra).
  assert (SG : fd L (line_second l p) (line_key2 l) <= s) by (unfold true2 in SS; nra).
  exists (calc_dr2 L (line_first l p - line_key l) (line_second l p - line_key2 l)). unfold reported. split; [|split; [|split; [reflexivity|]]].
  - apply window_complete; try assumption; lra.
  - apply second_complete; try assumption; lra.
  - set (t := true2 L p l) in *. clearbody t. set (h := p_h p) in *. clearbody h. set (c := calc_dr2 _ _ _) in *. clearbody c.
    set (q := s32 (h * h)) in *. clearbody q. clear F0 F1 G0 G1 SF SG.
    assert (E1 : s * s <= (h - L / 2097152) * (h - L / 2097152)) by nra.
    assert (E2 : h * (L / 2097152) >= (L / 2097152) * (L / 2097152)) by nra.
    assert (E3 : h * h <= h * L / 2) by nra. assert (0 < L * L) by nra.
    replace ((h - L / 2097152) * (h - L / 2097152)) with (h * h - 2 * (h * L) / 2097152 + L * L / 4398046511104) in E1 by lra.
    replace (h * (L / 2097152)) with (h * L / 2097152) in E2 by lra. replace (L / 2097152 * (L / 2097152)) with (L * L / 4398046511104) in E2 by lra.
    set (hh := h * h) in *. clearbody hh. set (hL := h * L) in *. clearbody hL. set (LL := L * L) in *. clearbody LL. lra.
Qed.

Lemma reported_sound : forall L p l v, / 2 ^ 40 <= L -> 0 <= p_h p -> good_particle L p -> good_line L l -> reported L p l v ->
  exists d, transverse_distance L p l d /\ d <= p_h p + (p_h p + L) / 2 ^ 23 /\ Rabs (v - d * d) <= L * L / 2 ^ 47.
Proof.
  intros L p l v H HP P Q (_ & _ & -> & Hle). pose proof (box_pos L H) as LP. rewrite p23, p47.
  exists (sqrt (true2 L p l)). split; [now apply transverse_true|].
  pose proof (value_near L p l H P Q) as V. pose proof (square32 L (p_h p) H HP) as S32.
  pose proof (true2_pos L p l) as TP. pose proof (sqrt_sqrt _ TP) as SS. pose proof (sqrt_pos (true2 L p l)) as SP.
  set (s := sqrt (true2 L p l)) in *. clearbody s. set (t := true2 L p l) in *. clearbody t. set (h := p_h p) in *. clearbody h.
  set (c := calc_dr2 _ _ _) in *. clearbody c. set (q := s32 (h * h)) in *. clearbody q. split.
  - destruct (Rle_dec s (h + (h + L) / 8388608)) as [?|N]; [assumption|exfalso].
    assert (E1 : (h + (h + L) / 8388608) * (h + (h + L) / 8388608) < s * s) by nra.
    assert (E2 : 0 <= h * L) by nra. assert (E4 : 0 <= h * h) by nra. assert (E3 : 0 < L * L) by nra.
    replace ((h + (h + L) / 8388608) * (h + (h + L) / 8388608)) with (h * h + 2 * (h * h + h * L) / 8388608 + (h * h + 2 * (h * L) + L * L) / 70368744177664) in E1 by lra.
    set (hh := h * h) in *. clearbody hh. set (hL := h * L) in *. clearbody hL. set (LL := L * L) in *. clearbody LL. lra.
  - rewrite SS. apply Rabs_le. lra.
Qed.

(** ** The search *)

Lemma search_aux : forall L ls p, / 2 ^ 40 <= L -> 0 < p_h p -> good_particle L p -> List.Forall (good_line L) ls ->
  exists m, get_near_lines L ls p = Some m /\ StronglySorted Z.lt (map fst m) /\
    (forall i v, In (i, v) m -> exists n l d, i = Z.of_nat n /\ nth_error ls n = Some l /\ transverse_distance L p l d /\
       d <= p_h p + (p_h p + L) / 2 ^ 23 /\ Rabs (v - d * d) <= L * L / 2 ^ 47) /\
    (2 * p_h p + L / 2 ^ 20 <= L ->
     forall n l, nth_error ls n = Some l -> clearly_near L p l -> exists v, In (Z.of_nat n, v) m).
Proof.
  intros L ls p H HP P Q. rewrite List.Forall_forall in Q.
  destruct (get_near_lines_spec L ls p) as (m & E & K & I). exists m. split; [exact E|]. split; [|split].
  - clear - K. induction m as [|a m IH]; cbn [map]; constructor.
    + apply IH. now apply ksorted_cons_inv in K.
    + apply ksorted_cons_inv in K. destruct K as (_ & K). rewrite List.Forall_forall. intros x X. apply in_map_iff in X as (b & <- & B). now apply K.
  - intros i v M. apply I in M as (n & l & d & E1 & N & R). inversion E1; subst.
    destruct (reported_sound L p l d H ltac:(lra) P (Q _ (nth_error_In _ _ N)) R) as (t & T1 & T2 & T3). exists n, l, t. auto.
  - intros HL n l N C. destruct (reported_complete L p l H HP HL P (Q _ (nth_error_In _ _ N)) C) as (v & R).
    exists v. apply I. exists n, l, v. auto.
Qed.

Lemma list_aux : forall L ls ps order, / 2 ^ 40 <= L -> (Z.of_nat (length ps) <= 2 ^ 31)%Z ->
  List.Forall (fun p => 0 < p_h p /\ 2 * p_h p + L / 2 ^ 20 <= L /\ good_particle L p) ps -> List.Forall (good_line L) ls ->
  Permutation order (seq 0 (length ps)) ->
  exists s, py_near_lines L ls ps order = Some s /\ StronglySorted Z.lt s /\
    (forall k, In k s -> exists i p l, k = Z.of_nat i /\ nth_error ps i = Some p /\ In l ls /\ about_near L p l) /\
    (forall i p l, nth_error ps i = Some p -> In l ls -> clearly_near L p l -> In (Z.of_nat i) s).
Proof.
  intros L ls ps order H Sz P Q Pm. rewrite List.Forall_forall in P, Q.
  destruct (py_near_lines_spec L ls ps order []) as (s & E & Z & I).
  { intros i. apply (perm_seq_in _ _ Pm). } { constructor. }
  exists s. split; [exact E|]. split; [exact Z|]. split.
  - intros k K. apply I in K as [[]|(i & O & -> & p & l & d & N & Il & R)]. apply (perm_seq_in _ _ Pm) in O.
    exists i, p, l. rewrite to_int32_id by lia. split; [reflexivity|]. split; [exact N|]. split; [exact Il|].
    destruct (P p (nth_error_In _ _ N)) as (P1 & _ & P3).
    destruct (reported_sound L p l d H ltac:(lra) P3 (Q _ Il) R) as (t & T1 & T2 & _). exists t. auto.
  - intros i p l N Il C. apply I. right. exists i. assert (B : (i < length ps)%nat) by (apply nth_error_Some; congruence).
    split; [now apply (perm_seq_in _ _ Pm)|]. split; [rewrite to_int32_id by lia; reflexivity|].
    destruct (P p (nth_error_In _ _ N)) as (P1 & P2 & P3). destruct (reported_complete L p l H P1 P2 P3 (Q _ Il) C) as (v & R).
    exists p, l, v. auto.
Qed.

Lemma pairs_aux : forall L ls ps order, / 2 ^ 40 <= L -> (Z.of_nat (length ps) <= 2 ^ 31)%Z ->
  List.Forall (fun p => 0 < p_h p /\ 2 * p_h p + L / 2 ^ 20 <= L /\ good_particle L p) ps -> List.Forall (good_line L) ls ->
  Permutation order (seq 0 (length ps)) ->
  exists lists, get_near_particles L ls ps order = Some lists /\ length lists = length ls /\
    get_near_particles L ls ps order = get_near_particles L ls ps (seq 0 (length ps)) /\
    forall n l m, nth_error ls n = Some l -> nth_error lists n = Some m ->
      StronglySorted Z.lt (map fst m) /\
      (forall k v, In (k, v) m -> exists i p d, k = Z.of_nat i /\ nth_error ps i = Some p /\ transverse_distance L p l d /\
         d <= p_h p + (p_h p + L) / 2 ^ 23 /\ Rabs (v - d * d) <= L * L / 2 ^ 47) /\
      (forall i p, nth_error ps i = Some p -> clearly_near L p l -> exists v, In (Z.of_nat i, v) m).
Proof.
  intros L ls ps order H Sz P Q Pm. rewrite List.Forall_forall in P, Q.
  destruct (get_near_particles_spec L ls ps order Sz Pm) as (lists & E & Le & I).
  destruct (get_near_particles_spec L ls ps (seq 0 (length ps)) Sz (Permutation_refl _)) as (lists' & E' & Le' & I').
  exists lists. split; [exact E|]. split; [exact Le|]. split.
  - rewrite E, E'. f_equal. apply nth_ext with (d := []) (d' := []); [congruence|]. intros n N.
    destruct (nth_error lists n) as [m|] eqn:M; [|apply nth_error_None in M; lia].
    destruct (nth_error lists' n) as [m'|] eqn:M'; [|apply nth_error_None in M'; lia].
    rewrite (nth_error_nth _ _ _ M), (nth_error_nth _ _ _ M'). destruct (I n m M) as (S1 & I1). destruct (I' n m' M') as (S2 & I2).
    apply ksorted_ext; auto. intros [k v]. rewrite I1, I2. reflexivity.
  - intros n l m Nl M. destruct (I n m M) as (K & J). split; [|split].
    + clear - K. induction m as [|a m IH]; cbn [map]; constructor.
      * apply IH. now apply ksorted_cons_inv in K.
      * apply ksorted_cons_inv in K. destruct K as (_ & K). rewrite List.Forall_forall. intros x X. apply in_map_iff in X as (b & <- & B). now apply K.
    + intros k v Kv. apply J in Kv as (i & -> & p & l' & Np & Nl' & R). assert (l' = l) by congruence. subst l'.
      destruct (P p (nth_error_In _ _ Np)) as (P1 & _ & P3).
      destruct (reported_sound L p l v H ltac:(lra) P3 (Q _ (nth_error_In _ _ Nl)) R) as (t & T1 & T2 & T3). exists i, p, t. auto.
    + intros i p Np C. destruct (P p (nth_error_In _ _ Np)) as (P1 & P2 & P3).
      destruct (reported_complete L p l H P1 P2 P3 (Q _ (nth_error_In _ _ Nl)) C) as (v & R). exists v. apply J. exists i. split; [reflexivity|].
      exists p, l. auto.
Qed.

(** ** A particle lost to rounding *)

Lemma rnd_above : forall h, 0 < h < / 2 -> rnd Single (16777216 + h) = 16777216.
Proof.
  intros h B. rewrite (rnd_at Single _ 25); [|cbn; lia|].
  - change (- (25 - bits Single))%Z with (-1)%Z. change (25 - bits Single)%Z with 1%Z. change (bpow radix2 (-1)) with (/ 2). change (bpow radix2 1) with 2.
    rewrite (Znearest_imp _ _ 8388608); [lra|]. apply Rabs_def1; lra.
  - rewrite Rabs_pos_eq by lra. change (bpow radix2 (25 - 1)) with 16777216. change (bpow radix2 25) with 33554432. lra.
Qed.

Lemma rnd_below : forall h, 0 < h < / 2 -> rnd Single (16777216 - h) = 16777216.
Proof.
  intros h B. rewrite (rnd_at Single _ 24); [|cbn; lia|].
  - change (- (24 - bits Single))%Z with 0%Z. change (24 - bits Single)%Z with 0%Z. change (bpow radix2 0) with 1.
    rewrite (Znearest_imp _ _ 16777216); [lra|]. apply Rabs_def1; lra.
  - rewrite Rabs_pos_eq by lra. change (bpow radix2 (24 - 1)) with 8388608. change (bpow radix2 24) with 16777216. lra.
Qed.

Lemma lost_aux : forall L h y z, 2 ^ 25 <= L -> 0 < h < / 2 -> inside L y -> inside L z ->
  exists p l, p_h p = h /\ good_particle L p /\ good_line L l /\ transverse_distance L p l 0 /\ get_near_lines L [l] p = Some [].
Proof.
  intros L h y z HL HB Y Z. exists (mkPart 16777216 y z h), (mkLine 3 16777216 y z).
  assert (B : 33554432 <= L) by (replace 33554432 with (2 ^ 25) by (simpl; lra); exact HL).
  assert (X : inside L 16777216) by (unfold inside; lra).
  assert (GP : good_particle L (mkPart 16777216 y z h)) by (repeat split; cbn; unfold inside in *; lra).
  assert (GL : good_line L (mkLine 3 16777216 y z)) by (split; [cbn; auto|repeat split; cbn; unfold inside in *; lra]).
  split; [reflexivity|]. split; [exact GP|]. split; [exact GL|]. split.
  - exists 0, 0. split; [rewrite Rmult_0_l, Rplus_0_l, sqrt_0; reflexivity|]. right; right. split; [reflexivity|].
    assert (D : forall a, periodic_distance L a a 0).
    { intros a. split; [exists 0%Z; rewrite Rabs_pos_eq; lra|]. intros k. apply Rabs_pos. }
    split; apply D.
  - unfold get_near_lines. cbn [build_table build_table_xx l_axis Z.eqb Pos.eqb l_x mm_insert p_x].
    unfold get_nearby. cbv zeta. cbn [p_h]. change (s32 (16777216 + h)) with (rnd Single (16777216 + h)). change (s32 (16777216 - h)) with (rnd Single (16777216 - h)).
    rewrite (rnd_above h HB), (rnd_below h HB).
    destruct (ltb_spec L 16777216); [lra|]. destruct (ltb_spec 16777216 0); [lra|]. destruct (leb_spec 16777216 16777216); [|lra].
    unfold get_nearby_from_range, lower_bound. destruct (ltb_spec 16777216 16777216); [lra|]. reflexivity.
Qed.
