(** Further proofs about absorbers in a periodic spectrum (C73). *)
From Coq Require Import ZArith List Bool Reals Lia Lra Sorting.Sorted.
From Flocq Require Import Core.Raux.
From Verif Require Import RegionModel HaloModel HaloSpec HaloProofs.
From Verif Require SightlineModel SightlineProofs.
Import ListNotations.
Local Open Scope R_scope.

Lemma level_exists : forall thresh relthresh m, exists c, is_level thresh relthresh m c.
Proof.
  intros t r m. unfold is_level. destruct (Rlt_dec t (IZR m)) as [L|L].
  - exists t. auto.
  - exists (r * IZR m). right. split; [lra|auto].
Qed.

Lemma loop_spec : forall box thresh relthresh n den, 0 < box -> (0 < n)%nat -> (forall row, In row den -> length row = n) ->
  exists rolled zpos, SightlineModel.roll_rows den = Some rolled /\
    regions_loop box thresh relthresh n rolled = Some zpos /\ length zpos = length den /\
    forall k row, nth_error den k = Some row ->
      exists roll lc, SightlineModel.roll_one_spectra row = Some (roll, lc) /\
        nth_error zpos k = spectrum_regions box thresh relthresh n roll lc.
Proof.
  intros box t r n den B N. induction den as [|row den IH]; intros L.
  - exists [], []. repeat split. intros [|k]; discriminate.
  - destruct IH as [rolled [zpos [E1 [E2 [E3 E4]]]]]; [intros; apply L; right; auto|].
    assert (NE : row <> []). { intros ->. specialize (L [] (or_introl eq_refl)). simpl in L. lia. }
    destruct (peak_exists row NE) as [p P]. destruct (level_exists t r (nth p row 0%Z)) as [c C].
    destruct (C73_one_aux box t r row p c B P C) as [roll [lc [zs [runs [F1 [F2 _]]]]]].
    rewrite (L row (or_introl eq_refl)) in F2.
    exists ((roll, lc) :: rolled), (zs :: zpos). cbn [SightlineModel.roll_rows regions_loop]. rewrite F1, E1, F2, E2.
    repeat split; [simpl; lia|]. intros [|k] row' H; cbn [nth_error] in *.
    + injection H as <-. exists roll, lc. rewrite F2. auto.
    + apply E4, H.
Qed.

Lemma C73_regions_aux : forall box thresh relthresh n den, 0 < box -> (0 < n)%nat -> 0 <= thresh -> 0 <= relthresh ->
  den <> [] -> (forall row, In row den -> length row = n /\ forall x, In x row -> (0 <= x)%Z) ->
  exists zpos, get_contiguous_regions box thresh relthresh n den = Some zpos /\ length zpos = length den /\
    forall k row zs p c, nth_error den k = Some row -> nth_error zpos k = Some zs -> peak row p ->
      is_level thresh relthresh (nth p row 0%Z) c ->
      let lo := (Z.of_nat p - Z.of_nat (n / 2))%Z in
      exists runs, StronglySorted (fun r r' : Z * Z => (snd r < fst r')%Z) runs /\
        (forall a b, In (a, b) runs <-> absorber row lo c a b) /\
        (forall i, (lo <= i < lo + Z.of_nat n)%Z -> c < IZR (pix row i) -> exists a b, In (a, b) runs /\ (a <= i < b)%Z) /\
        Forall2 (fun r z => placed box n (centroid row (fst r) (snd r)) z) runs zs.
Proof.
  intros box t r n den B N T R0 NE L.
  destruct (loop_spec box t r n den B N) as [rolled [zpos [E1 [E2 [E3 E4]]]]]; [intros; apply L; auto|].
  exists zpos. split; [|split; [exact E3|]].
  - unfold get_contiguous_regions, SightlineModel.get_rolled_spectra. destruct den; [congruence|]. rewrite E1. exact E2.
  - intros k row zs p c H1 H2 P C lo.
    pose proof (L row (nth_error_In _ _ H1)) as [Ln _].
    destruct (C73_one_aux box t r row p c B P C) as [roll [lc [zs' [runs [F1 [F2 [F3 [F4 [F5 F6]]]]]]]]].
    destruct (E4 k row H1) as [roll' [lc' [G1 G2]]]. rewrite F1 in G1. injection G1 as <- <-.
    rewrite Ln in *. rewrite H2, F2 in G2. injection G2 as ->.
    exists runs. auto.
Qed.

(** ** Where an absorber is *)

Lemma fold_sum_le : forall (f g : nat -> R) l, (forall j, In j l -> f j <= g j) ->
  fold_right Rplus 0 (map f l) <= fold_right Rplus 0 (map g l).
Proof.
  intros f g l; induction l as [|x l IH]; intros H; simpl; [lra|].
  pose proof (H x (or_introl eq_refl)). specialize (IH (fun j Hj => H j (or_intror Hj))). lra.
Qed.

Lemma fold_sum_scale : forall (f : nat -> R) k l,
  fold_right Rplus 0 (map (fun j => k * f j) l) = k * fold_right Rplus 0 (map f l).
Proof. intros f k l; induction l as [|x l IH]; simpl; [ring|rewrite IH; ring]. Qed.

Lemma fold_sum_plus : forall (f g : nat -> R) l,
  fold_right Rplus 0 (map (fun j => f j + g j) l) = fold_right Rplus 0 (map f l) + fold_right Rplus 0 (map g l).
Proof. intros f g l; induction l as [|x l IH]; simpl; [ring|rewrite IH; ring]. Qed.

Lemma sum_range_pos : forall f a b, (a < b)%Z -> (forall i, (a <= i < b)%Z -> 0 < f i) -> 0 < sum_range f a b.
Proof.
  intros f a b L H. unfold sum_range. destruct (Z.to_nat (b - a)) as [|m] eqn:E; [lia|].
  cbn [seq map fold_right].
  assert (0 <= fold_right Rplus 0 (map (fun k => f (a + Z.of_nat k)%Z) (seq 1 m))).
  { apply Rle_trans with (fold_right Rplus 0 (map (fun _ : nat => 0 * 0) (seq 1 m))).
    - rewrite fold_sum_scale. lra.
    - apply fold_sum_le. intros j J. apply in_seq in J. specialize (H (a + Z.of_nat j)%Z ltac:(lia)). lra. }
  specialize (H (a + Z.of_nat 0)%Z ltac:(lia)). lra.
Qed.

Lemma centroid_between : forall den a b, (a < b)%Z -> (forall i, (a <= i < b)%Z -> 0 < IZR (pix den i)) ->
  IZR a <= centroid den a b <= IZR (b - 1).
Proof.
  intros den a b L H. unfold centroid.
  pose proof (sum_range_pos (fun i => IZR (pix den i)) a b L H) as P.
  set (W := sum_range (fun i => IZR (pix den i)) a b) in *.
  assert (B1 : IZR a * W <= sum_range (fun i => IZR (pix den i) * IZR i) a b).
  { unfold W, sum_range. rewrite <- fold_sum_scale. apply fold_sum_le. intros j J. apply in_seq in J.
    specialize (H (a + Z.of_nat j)%Z ltac:(lia)). assert (IZR a <= IZR (a + Z.of_nat j)) by (apply IZR_le; lia). nra. }
  assert (B2 : sum_range (fun i => IZR (pix den i) * IZR i) a b <= IZR (b - 1) * W).
  { unfold W, sum_range. rewrite <- fold_sum_scale. apply fold_sum_le. intros j J. apply in_seq in J.
    specialize (H (a + Z.of_nat j)%Z ltac:(lia)). assert (IZR (a + Z.of_nat j) <= IZR (b - 1)) by (apply IZR_le; lia). nra. }
  set (Q := sum_range (fun i => IZR (pix den i) * IZR i) a b) in *.
  split.
  - apply Rmult_le_reg_r with W; auto. unfold Rdiv. rewrite Rmult_assoc, Rinv_l by lra. lra.
  - apply Rmult_le_reg_r with W; auto. unfold Rdiv. rewrite Rmult_assoc, Rinv_l by lra. lra.
Qed.

Lemma C73_inside_aux : forall den lo c a b, 0 <= c -> absorber den lo c a b ->
  IZR a <= centroid den a b <= IZR (b - 1).
Proof.
  intros den lo c a b C [A [B [I _]]]. apply centroid_between; [lia|].
  intros i Hi. specialize (I i Hi). lra.
Qed.

(** ** The seam *)

Lemma pix_period : forall den i, den <> [] -> pix den (i + Z.of_nat (length den)) = pix den i.
Proof.
  intros den i H. unfold pix. rewrite <- (Z.mul_1_l (Z.of_nat (length den))) at 1.
  rewrite Z_mod_plus_full. reflexivity.
Qed.

Lemma pix_period_k : forall den i k, pix den (i + k * Z.of_nat (length den)) = pix den i.
Proof. intros den i k. unfold pix. rewrite Z_mod_plus_full. reflexivity. Qed.

Lemma C73_whole_aux : forall den lo c a b, den <> [] ->
  ~ (c < IZR (pix den lo) /\ c < IZR (pix den (lo - 1))) -> absorber den lo c a b ->
  (forall i, (a <= i < b)%Z -> c < IZR (pix den i)) /\ IZR (pix den (a - 1)) <= c /\ IZR (pix den b) <= c.
Proof.
  intros den lo c a b NE NS [A [B [I [L U]]]]. split; [exact I|].
  assert (X : c < IZR (pix den lo) -> IZR (pix den (lo - 1)) <= c) by (intros; apply Rnot_lt_le; tauto).
  assert (Y : c < IZR (pix den (lo - 1)) -> IZR (pix den lo) <= c) by (intros; apply Rnot_lt_le; tauto).
  split.
  - destruct L as [->|L]; [|exact L]. apply X, I. lia.
  - destruct U as [->|U]; [|exact U]. rewrite pix_period by auto. apply Y.
    rewrite <- (pix_period den (lo - 1)) by auto.
    replace (lo - 1 + Z.of_nat (length den))%Z with (lo + Z.of_nat (length den) - 1)%Z by ring. apply I. lia.
Qed.

(** ** Moving a spectrum round the box *)

Section Shift.
Variables (den den' : list Z) (k : Z).
Hypothesis Hlen : length den' = length den.
Hypothesis Hmove : forall i, pix den' i = pix den (i - k).
Variables (p p' : nat).
Hypothesis Hp : peak den p.
Hypothesis Huniq : forall i, (i < length den)%nat -> nth i den 0%Z = nth p den 0%Z -> i = p.
Hypothesis Hp' : peak den' p'.

Lemma den_ne : den <> [].
Proof. intros E. destruct Hp as [P _]. rewrite E in P. simpl in P. lia. Qed.

Lemma pix_nth : forall l i, (i < length l)%nat -> pix l (Z.of_nat i) = nth i l 0%Z.
Proof. intros l i L. unfold pix. rewrite Z.mod_small by lia. rewrite Nat2Z.id. reflexivity. Qed.

Lemma pix_le_peak : forall i, (pix den i <= nth p den 0)%Z.
Proof.
  intros i. unfold pix. destruct Hp as [P1 [P2 _]]. apply P2.
  assert (0 <= i mod Z.of_nat (length den) < Z.of_nat (length den))%Z by (apply Z.mod_pos_bound; lia). lia.
Qed.

Lemma peak_moves : exists j : Z, (Z.of_nat p' = Z.of_nat p + k + j * Z.of_nat (length den))%Z.
Proof.
  destruct Hp' as [Q1 [Q2 _]]. rewrite Hlen in *.
  pose proof Hp as [P1 _].
  set (nz := Z.of_nat (length den)) in *. assert (NZ : (0 < nz)%Z) by (unfold nz; lia).
  assert (V : pix den (Z.of_nat p' - k) = nth p den 0%Z).
  { apply Z.le_antisymm; [apply pix_le_peak|].
    assert (M : (0 <= (Z.of_nat p + k) mod nz < nz)%Z) by (apply Z.mod_pos_bound; lia).
    specialize (Q2 (Z.to_nat ((Z.of_nat p + k) mod nz)) ltac:(unfold nz in *; lia)).
    rewrite <- (pix_nth den' p') in Q2 by (rewrite Hlen; auto). rewrite Hmove in Q2.
    rewrite <- pix_nth in Q2 by (rewrite Hlen; unfold nz in *; lia). rewrite Hmove, Z2Nat.id in Q2 by lia.
    replace ((Z.of_nat p + k) mod nz - k)%Z with (Z.of_nat p + (- ((Z.of_nat p + k) / nz)) * nz)%Z in Q2
      by (rewrite Z.mod_eq by lia; ring).
    unfold nz in Q2. rewrite pix_period_k, pix_nth in Q2 by auto. exact Q2. }
  unfold pix in V. fold nz in V.
  assert (M : (0 <= (Z.of_nat p' - k) mod nz < nz)%Z) by (apply Z.mod_pos_bound; lia).
  apply Huniq in V; [|unfold nz in *; lia].
  exists ((Z.of_nat p' - k) / nz)%Z. pose proof (Z.div_mod (Z.of_nat p' - k) nz ltac:(lia)) as D.
  assert ((Z.of_nat p' - k) mod nz = Z.of_nat p)%Z by lia. lia.
Qed.

Lemma same_rolled : SightlineModel.np_roll den' (Z.of_nat (length den / 2) - Z.of_nat p') =
  SightlineModel.np_roll den (Z.of_nat (length den / 2) - Z.of_nat p).
Proof.
  destruct peak_moves as [j J]. apply nth_error_ext. intros i.
  assert (NE : den <> []) by apply den_ne.
  assert (NE' : den' <> []) by (intros E; rewrite E in Hlen; destruct den; [congruence|discriminate]).
  destruct (lt_dec i (length den)) as [L|L].
  - rewrite !lc_nth by (auto; lia). f_equal. rewrite Hmove.
    rewrite <- (pix_period_k den _ (- j)). f_equal. lia.
  - transitivity (@None Z); [|symmetry]; apply nth_error_None; rewrite SightlineProofs.roll_length; lia.
Qed.

Lemma same_max : nth p' den' 0%Z = nth p den 0%Z.
Proof.
  destruct peak_moves as [j J]. pose proof Hp as [P1 _]. pose proof Hp' as [Q1 _].
  rewrite <- pix_nth by auto. rewrite Hmove, J.
  replace (Z.of_nat p + k + j * Z.of_nat (length den) - k)%Z with (Z.of_nat p + j * Z.of_nat (length den))%Z by ring.
  rewrite pix_period_k, pix_nth by auto. reflexivity.
Qed.

End Shift.

Lemma weighted_shift : forall w x d, length w = length x ->
  weighted w (map (fun i => (i + d)%Z) x) = weighted w x + IZR d * total (map IZR w).
Proof.
  intros w; induction w as [|a w IH]; intros [|b x] d L; try discriminate.
  - unfold weighted. simpl. ring.
  - cbn [map]. unfold weighted in *. cbn [combine map total fold_right fst snd]. unfold total in *.
    rewrite IH by (simpl in L; lia). cbn [map fold_right]. rewrite plus_IZR. ring.
Qed.

Lemma placed_moved : forall box n x d z z', 0 < box -> (0 < n)%nat -> placed box n x z -> placed box n (x + d) z' ->
  moved_by box (d * box / INR n) z z'.
Proof.
  intros box n x d z z' B N [_ [i E]] [_ [j E']]. exists (j - i)%Z. rewrite E, E', minus_IZR. field.
  apply not_0_INR. lia.
Qed.

Lemma placed_period : forall box n x k z, placed box n (x + IZR k * INR n) z -> placed box n x z.
Proof.
  intros box n x k z [B [j E]]. split; auto. exists (k + j)%Z. rewrite E, plus_IZR. f_equal. f_equal. ring.
Qed.

Lemma region_shift : forall box n lc seg roll roll' k j, 0 < box -> (0 < n)%nat -> length lc = n ->
  (fst seg <= snd seg <= n)%nat -> total (map IZR (SightlineModel.py_slice (fst seg) (snd seg) lc)) <> 0 ->
  roll' = (roll - k + j * Z.of_nat n)%Z ->
  moved_by box (IZR k * box / INR n) (region_pos box n roll lc seg) (region_pos box n roll' lc seg).
Proof.
  intros box n lc seg roll roll' k j B N L S T E.
  unfold region_pos.
  set (nn := SightlineModel.py_slice (fst seg) (snd seg) (seq 0 n)).
  set (w := SightlineModel.py_slice (fst seg) (snd seg) lc) in *.
  assert (LW : length w = length (map (fun i => (Z.of_nat i - roll)%Z) nn)).
  { unfold w, nn. rewrite map_length. unfold SightlineModel.py_slice. rewrite !firstn_length, !skipn_length, seq_length. lia. }
  replace (map (fun i => (Z.of_nat i - roll')%Z) nn)
    with (map (fun i => (i + (k + - j * Z.of_nat n))%Z) (map (fun i => (Z.of_nat i - roll)%Z) nn))
    by (rewrite map_map; apply map_ext; intros; lia).
  rewrite weighted_shift by auto.
  replace ((weighted w (map (fun i => (Z.of_nat i - roll)%Z) nn) + IZR (k + - j * Z.of_nat n) * total (map IZR w)) /
     total (map IZR w)) with (weighted w (map (fun i => (Z.of_nat i - roll)%Z) nn) / total (map IZR w) + IZR (k + - j * Z.of_nat n))
    by (field; auto).
  set (x := weighted w _ / _).
  apply placed_moved with (x := x); auto.
  - apply float_mod_placed; auto.
  - apply placed_period with (k := (- j)%Z).
    replace (x + IZR k + IZR (- j) * INR n) with (x + IZR (k + - j * Z.of_nat n))
      by (rewrite plus_IZR, mult_IZR, <- INR_IZR_INZ; ring).
    apply float_mod_placed; auto.
Qed.

Lemma slice_in : forall A (l : list A) a b x, In x (SightlineModel.py_slice a b l) ->
  exists i, (a <= i < b)%nat /\ nth_error l i = Some x.
Proof.
  intros A l a b x H. unfold SightlineModel.py_slice in H. apply In_nth_error in H as [i H].
  assert (I : (i < b - a)%nat).
  { assert (i < length (firstn (b - a) (skipn a l)))%nat by (apply nth_error_Some; congruence). rewrite firstn_length in *. lia. }
  exists (a + i)%nat. split; [lia|]. 
  assert (E : nth_error (skipn a l) i = Some x).
  { rewrite <- (firstn_skipn (b - a) (skipn a l)). rewrite nth_error_app1; auto. apply nth_error_Some. congruence. }
  clear - E. revert l E. induction a; intros l E; [exact E|]. destruct l; [destruct i; discriminate|]. apply IHa, E.
Qed.

Lemma total_pos : forall l, l <> [] -> (forall x, In x l -> 0 < x) -> 0 < total l.
Proof.
  intros l; induction l as [|x l IH]; intros H P; [congruence|]. unfold total in *. cbn [fold_right].
  pose proof (P x (or_introl eq_refl)). destruct l; [simpl; lra|].
  specialize (IH ltac:(congruence) (fun y Hy => P y (or_intror Hy))). lra.
Qed.

Lemma C73_shift_aux : forall box thresh relthresh den den' k p, 0 < box -> 0 <= thresh -> 0 <= relthresh ->
  (forall x, In x den -> (0 <= x)%Z) -> length den' = length den -> (forall i, pix den' i = pix den (i - k)) ->
  peak den p -> (forall i, (i < length den)%nat -> nth i den 0%Z = nth p den 0%Z -> i = p) ->
  exists zs zs', get_contiguous_regions box thresh relthresh (length den) [den] = Some [zs] /\
    get_contiguous_regions box thresh relthresh (length den) [den'] = Some [zs'] /\
    Forall2 (moved_by box (IZR k * box / INR (length den))) zs zs'.
Proof.
  intros box t r den den' k p B T R0 NN HL HM P U.
  assert (NE : den <> []) by (intros ->; destruct P as [P _]; simpl in P; lia).
  assert (NE' : den' <> []) by (intros E; rewrite E in HL; destruct den; [congruence|discriminate]).
  destruct (peak_exists den' NE') as [p' P'].
  destruct (level_exists t r (nth p den 0%Z)) as [c C].
  pose proof (same_rolled den den' k HL HM p p' P U P') as SR.
  pose proof (same_max den den' k HL HM p p' P U P') as SX.
  destruct (peak_moves den den' k HL HM p p' P U P') as [j J].
  set (roll := (Z.of_nat (length den / 2) - Z.of_nat p)%Z) in *.
  set (roll' := (Z.of_nat (length den / 2) - Z.of_nat p')%Z) in *.
  set (lc := SightlineModel.np_roll den roll) in *.
  destruct (seps_spec den roll NE t r c (nth p den 0%Z) C) as [seps [E [S1 [S2 [S3 S4]]]]].
  exists (map (region_pos box (length den) roll lc) seps), (map (region_pos box (length den) roll' lc) seps).
  assert (M1 : SightlineModel.list_max lc = Some (nth p den 0%Z)) by (apply (lc_max den roll NE p P)).
  assert (PP : forall x, In x den -> (0 <= x)%Z) by auto.
  split; [|split].
  - unfold get_contiguous_regions, SightlineModel.get_rolled_spectra, SightlineModel.roll_rows.
    rewrite (roll_one den p P). fold roll. fold lc. cbn [regions_loop]. unfold spectrum_regions. rewrite M1.
    fold lc in E. rewrite E. reflexivity.
  - unfold get_contiguous_regions, SightlineModel.get_rolled_spectra, SightlineModel.roll_rows.
    rewrite (roll_one den' p' P'), HL. fold roll'. rewrite SR. cbn [regions_loop]. unfold spectrum_regions. rewrite M1.
    fold lc in E. rewrite E. reflexivity.
  - apply Forall2_map_both. intros seg H. specialize (S3 seg H).
    assert (AB : absorber den (- roll) c (Z.of_nat (fst seg) - roll) (Z.of_nat (snd seg) - roll)).
    { apply S2. apply in_map_iff. exists seg. auto. }
    apply region_shift with (j := (- j)%Z); auto.
    + apply n_pos; auto.
    + unfold lc. apply SightlineProofs.roll_length.
    + destruct AB as [A1 [A2 [A3 _]]].
      apply Rgt_not_eq, total_pos.
      * intros Q. apply map_eq_nil in Q. apply (f_equal (@length Z)) in Q. unfold SightlineModel.py_slice in Q.
        rewrite firstn_length, skipn_length in Q. unfold lc in Q. rewrite SightlineProofs.roll_length in Q. simpl in Q. lia.
      * intros x X. apply in_map_iff in X as [y [<- Y]]. apply slice_in in Y as [i [I Y]].
        unfold lc in Y. rewrite lc_nth in Y by (auto; lia). injection Y as <-.
        specialize (A3 (Z.of_nat i - roll)%Z ltac:(lia)).
        assert (0 <= c); [|lra]. destruct C as [[_ ->]|[_ ->]]; auto. apply Rmult_le_pos; auto. apply IZR_le, PP, nth_In, P.
    + unfold roll', roll. lia.
Qed.

(** An absorber lying across the seam is reported as two. *)
Lemma C73_seam_aux : exists box thresh relthresh den z1 z2 z3, 0 < box /\ 0 < thresh /\ 0 < relthresh /\
  get_contiguous_regions box thresh relthresh 6 [den] = Some [[z1; z2; z3]] /\
  (forall i, (-1 <= i < 1)%Z -> thresh < IZR (pix den i)) /\
  z1 = 0 /\ z3 = 5 * box / 6.
Proof.
  exists 6, 1, 1, [5; 0; 0; 9; 0; 5]%Z, 0, 3, 5.
  split; [lra|]. split; [lra|]. split; [lra|]. split.
  - assert (P : peak [5; 0; 0; 9; 0; 5]%Z 3).
    { repeat split; simpl; try lia; intros i I; do 6 (destruct i as [|i]; simpl; try lia). }
    unfold get_contiguous_regions, SightlineModel.get_rolled_spectra, SightlineModel.roll_rows.
    rewrite (roll_one _ 3 P). cbn [regions_loop length].
    change (Z.of_nat (6 / 2) - Z.of_nat 3)%Z with 0%Z.
    change (SightlineModel.np_roll [5; 0; 0; 9; 0; 5]%Z 0) with [5; 0; 0; 9; 0; 5]%Z.
    unfold spectrum_regions. change (SightlineModel.list_max [5; 0; 0; 9; 0; 5]%Z) with (Some 9%Z).
    assert (M : map (above_cut 1 1 9) [5; 0; 0; 9; 0; 5]%Z = [true; false; false; true; false; true]).
    { cbn [map]. unfold above_cut. destruct (Rlt_dec 1 9) as [_|]; [|lra].
      destruct (Rlt_dec 1 5) as [_|]; [|lra]. destruct (Rlt_dec 1 9) as [_|]; [|lra].
      destruct (Rlt_dec 1 0) as [|_]; [lra|]. reflexivity. }
    cbv beta iota. rewrite M.
    change (combine_regions [true; false; false; true; false; true] 0) with (Some [(0, 1); (3, 4); (5, 6)]%nat).
    cbn [map].
    assert (FM : forall k v : Z, (0 < v)%Z -> (0 <= k < 6)%Z ->
      float_mod ((IZR v * IZR k + 0) / (IZR v + 0)) (INR 6) * (1 * 6 / INR 6) = IZR k).
    { intros k v V K. assert (IZR v <> 0) by (apply not_0_IZR; lia).
      replace ((IZR v * IZR k + 0) / (IZR v + 0)) with (IZR k) by (rewrite !Rplus_0_r; field; auto).
      replace (INR 6) with 6 by (simpl; lra). unfold float_mod.
      replace (Zfloor (IZR k / 6)) with 0%Z; [lra|]. symmetry. apply Zfloor_imp.
      assert (0 <= IZR k) by (apply IZR_le; lia). assert (IZR k < 6) by (apply IZR_lt; lia). simpl (IZR (0 + 1)). lra. }
    do 3 f_equal; [|f_equal; [|f_equal]].
    + exact (FM 0%Z 5%Z ltac:(lia) ltac:(lia)).
    + exact (FM 3%Z 9%Z ltac:(lia) ltac:(lia)).
    + exact (FM 5%Z 5%Z ltac:(lia) ltac:(lia)).
  - split; [|split].
    + intros i I. assert (i = -1 \/ i = 0)%Z as [-> | ->] by lia.
      * change (1 < 5). lra.
      * change (1 < 5). lra.
    + reflexivity.
    + lra.
Qed.
