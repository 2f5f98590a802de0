(** Proofs about absorbers in a periodic spectrum (C73). *)
From Coq Require Import ZArith List Bool Reals Lia Lra Sorting.Sorted.
From Flocq Require Import Core.Raux.
From Verif Require Import RegionModel RegionSpec RegionProofs HaloModel HaloSpec.
From Verif Require SightlineModel SightlineProofs.
Import ListNotations.
Local Open Scope R_scope.


Lemma float_mod_placed : forall box n x, 0 < box -> (0 < n)%nat ->
  placed box n x (float_mod x (INR n) * (1 * box / INR n)).
Proof.
  intros box n x B N. assert (N' : 0 < INR n) by (apply lt_0_INR; auto).
  unfold float_mod, placed.
  pose proof (Zfloor_lb (x / INR n)) as L. pose proof (Zfloor_ub (x / INR n)) as U.
  set (k := Zfloor (x / INR n)) in *.
  assert (E : x = INR n * (x / INR n)) by (field; lra).
  set (q := x / INR n) in *.
  assert (M : (x - INR n * IZR k) * (1 * box / INR n) = (q - IZR k) * box) by (rewrite E at 1; field; lra).
  split.
  - rewrite M. split; [apply Rmult_le_pos; lra|]. nra.
  - exists (- k)%Z. rewrite opp_IZR. field. lra.
Qed.

(** What rolling does to a spectrum. *)
Lemma roll_one : forall den p, peak den p ->
  SightlineModel.roll_one_spectra den = Some ((Z.of_nat (length den / 2) - Z.of_nat p)%Z,
    SightlineModel.np_roll den (Z.of_nat (length den / 2) - Z.of_nat p)).
Proof.
  intros den p [P1 [P2 P3]]. unfold SightlineModel.roll_one_spectra, SightlineModel.list_max.
  destruct den as [|x0 t]; [simpl in P1; lia|].
  assert (F : forall l x, In (fold_left Z.max l x) (x :: l) /\ forall y, In y (x :: l) -> (y <= fold_left Z.max l x)%Z).
  { intros l; induction l as [|z l IH]; intros x; cbn [fold_left].
    - split; [left; auto|]. intros y [<-|[]]. lia.
    - destruct (IH (Z.max x z)) as [I1 I2]. split.
      + destruct I1 as [I1|I1]; [|right; right; auto].
        destruct (Z.max_spec x z) as [[_ E]|[_ E]]; rewrite E in I1 at 1; [right; left|left]; rewrite <- I1; try rewrite E; reflexivity.
      + intros y [<-|[<-|Y]].
        * specialize (I2 _ (or_introl eq_refl)). lia.
        * specialize (I2 _ (or_introl eq_refl)). lia.
        * apply I2. right; auto. }
  destruct (F t x0) as [M1 M2].
  set (m := fold_left Z.max t x0) in *.
  destruct (SightlineProofs.first_index_spec m (x0 :: t) M1) as [k [E [N G]]]. rewrite E.
  assert (K : (k < length (x0 :: t))%nat) by (apply nth_error_Some; rewrite N; congruence).
  assert (Ek : nth k (x0 :: t) 0%Z = m) by (apply nth_error_nth with (d := 0%Z) in N; auto).
  assert (p = k).
  { destruct (Nat.lt_trichotomy p k) as [L|[L|L]]; auto.
    - exfalso. pose proof (P2 k K) as Q. rewrite Ek in Q.
      pose proof (M2 (nth p (x0 :: t) 0%Z) (nth_In _ _ P1)) as Q'.
      assert (nth p (x0 :: t) 0%Z = m) by lia.
      apply (G p m L); [|reflexivity]. rewrite nth_error_nth' with (d := 0%Z) by auto. rewrite H. auto.
    - exfalso. pose proof (P3 k L) as Q. rewrite Ek in Q.
      pose proof (M2 (nth p (x0 :: t) 0%Z) (nth_In _ _ P1)). lia. }
  subst k. reflexivity.
Qed.

Lemma peak_exists : forall den, den <> [] -> exists p, peak den p.
Proof.
  intros den H. induction den as [|x l IH]; [congruence|].
  destruct l as [|y l].
  - exists 0%nat. repeat split; simpl; intros; try lia. destruct i; [lia|]. simpl in *. lia.
  - destruct IH as [p [P1 [P2 P3]]]; [congruence|].
    destruct (Z_lt_le_dec x (nth p (y :: l) 0%Z)) as [L|L].
    + exists (S p). split; [cbn [length] in *; lia|]. split.
      * intros [|i] I; cbn [nth]; [apply Z.lt_le_incl, L|]. apply P2. cbn [length] in *; lia.
      * intros [|i] I; cbn [nth]; [exact L|]. apply P3. lia.
    + exists 0%nat. split; [cbn [length]; lia|]. split; [|lia].
      intros [|i] I; [lia|]. change (nth i (y :: l) 0 <= x)%Z.
      assert (nth i (y :: l) 0 <= nth p (y :: l) 0)%Z by (apply P2; cbn [length] in *; lia). lia.
Qed.

Lemma nth_error_ext : forall A (l l' : list A), (forall i, nth_error l i = nth_error l' i) -> l = l'.
Proof.
  intros A l; induction l as [|x l IH]; intros [|y l'] H; auto.
  - specialize (H 0%nat). discriminate.
  - specialize (H 0%nat). discriminate.
  - f_equal; [specialize (H 0%nat); cbn in H; congruence|]. apply IH. intros i. exact (H (S i)).
Qed.

Section Rolled.
Variables (den : list Z) (roll : Z).
Hypothesis Hden : den <> [].
Let n := length den.
Let lc := SightlineModel.np_roll den roll.

Lemma n_pos : (0 < n)%nat.
Proof. unfold n. destruct den; [congruence|simpl; lia]. Qed.

Lemma lc_length : length lc = n.
Proof. apply SightlineProofs.roll_length. Qed.

Lemma lc_nth : forall i, (i < n)%nat -> nth_error lc i = Some (pix den (Z.of_nat i - roll)).
Proof.
  intros i I. unfold lc. rewrite SightlineProofs.roll_nth by auto. unfold pix. apply nth_error_nth'.
  assert (0 <= (Z.of_nat i - roll) mod Z.of_nat (length den) < Z.of_nat (length den))%Z
    by (apply Z.mod_pos_bound; unfold n in I; lia). lia.
Qed.

Lemma lc_map : lc = map (fun i => pix den (Z.of_nat i - roll)) (seq 0 n).
Proof.
  apply nth_error_ext. intros i. destruct (lt_dec i n) as [L|L].
  - rewrite lc_nth by auto. rewrite nth_error_map.
    rewrite nth_error_nth' with (d := 0%nat) by (rewrite seq_length; auto). rewrite seq_nth by auto. reflexivity.
  - transitivity (@None Z); [|symmetry]; apply nth_error_None; [rewrite lc_length|rewrite map_length, seq_length]; lia.
Qed.

Lemma slice_map : forall A (f : nat -> A) k a b, (a <= b <= k)%nat ->
  SightlineModel.py_slice a b (map f (seq 0 k)) = map (fun j => f (a + j)%nat) (seq 0 (b - a)).
Proof.
  intros A f k a b L. unfold SightlineModel.py_slice.
  replace k with (a + ((b - a) + (k - b)))%nat by lia.
  rewrite !seq_app, !map_app. cbn [Nat.add].
  rewrite skipn_app, skipn_all2 by (rewrite map_length, seq_length; lia).
  rewrite map_length, seq_length, Nat.sub_diag. cbn [skipn app].
  rewrite firstn_app, firstn_all2 by (rewrite map_length, seq_length; lia).
  rewrite map_length, seq_length, Nat.sub_diag. cbn [firstn]. rewrite app_nil_r.
  clear. generalize (b - a)%nat. intros m. rewrite <- map_map with (f := fun j => (a + j)%nat) (g := f).
  f_equal. clear. replace a with (a + 0)%nat at 1 by lia. generalize 0%nat. induction m; intros z; [reflexivity|].
  cbn [seq map]. f_equal. rewrite <- IHm. f_equal. lia.
Qed.

Lemma combine_maps : forall A B (f : nat -> A) (g : nat -> B) l,
  combine (map f l) (map g l) = map (fun j => (f j, g j)) l.
Proof. intros A B f g l; induction l; simpl; [reflexivity|f_equal; auto]. Qed.

Lemma region_pos_centroid : forall box a b, (a <= b <= n)%nat ->
  region_pos box n roll lc (a, b) =
  float_mod (centroid den (Z.of_nat a - roll) (Z.of_nat b - roll)) (INR n) * (1 * box / INR n).
Proof.
  intros box a b L. unfold region_pos. cbn [fst snd]. do 2 f_equal.
  unfold centroid, sum_range, weighted, total. rewrite lc_map.
  replace (Z.to_nat (Z.of_nat b - roll - (Z.of_nat a - roll))) with (b - a)%nat by lia.
  rewrite slice_map by auto.
  assert (E : SightlineModel.py_slice a b (seq 0 n) = map (fun j => (a + j)%nat) (seq 0 (b - a))).
  { rewrite <- slice_map with (f := fun j => j) (k := n) by auto. rewrite map_id. reflexivity. }
  rewrite E, map_map, combine_maps, !map_map. cbn [fst snd].
  assert (J : forall j, (Z.of_nat (a + j) - roll = Z.of_nat a - roll + Z.of_nat j)%Z) by (intros; lia).
  rewrite (map_ext (fun j => IZR (pix den (Z.of_nat (a + j) - roll)))
    (fun k => IZR (pix den (Z.of_nat a - roll + Z.of_nat k)))) by (intros j; rewrite J; reflexivity).
  f_equal. f_equal. apply map_ext. intros j. rewrite J. reflexivity.
Qed.

Section Cut.
Variables (thresh relthresh c : R) (mx : Z).
Hypothesis Hc : is_level thresh relthresh mx c.

Lemma above_spec : forall x, above_cut thresh relthresh mx x = true <-> c < IZR x.
Proof.
  intros x. unfold above_cut. destruct Hc as [[H ->]|[H ->]]; destruct (Rlt_dec thresh (IZR mx)); try lra;
  destruct (Rlt_dec _ (IZR x)); split; intros; try lra; try congruence.
Qed.

Let mask := map (above_cut thresh relthresh mx) lc.

Lemma mask_true : forall i, nth_error mask i = Some true <-> (i < n)%nat /\ c < IZR (pix den (Z.of_nat i - roll)).
Proof.
  intros i. unfold mask. rewrite nth_error_map. destruct (lt_dec i n) as [L|L].
  - rewrite lc_nth by auto. cbn [option_map]. split.
    + intros E. split; auto. apply above_spec. congruence.
    + intros [_ E]. apply above_spec in E. rewrite E. auto.
  - assert (E : nth_error lc i = None) by (apply nth_error_None; rewrite lc_length; lia).
    rewrite E. split; [discriminate|]. intros [? _]; lia.
Qed.

Lemma mask_false : forall i, nth_error mask i = Some false <-> (i < n)%nat /\ IZR (pix den (Z.of_nat i - roll)) <= c.
Proof.
  intros i. unfold mask. rewrite nth_error_map. destruct (lt_dec i n) as [L|L].
  - rewrite lc_nth by auto. cbn [option_map]. split.
    + intros E. split; auto. apply Rnot_lt_le. intros Q. apply above_spec in Q. congruence.
    + intros [_ E]. destruct (above_cut thresh relthresh mx (pix den (Z.of_nat i - roll))) eqn:Q; auto.
      apply above_spec in Q. lra.
  - assert (E : nth_error lc i = None) by (apply nth_error_None; rewrite lc_length; lia).
    rewrite E. split; [discriminate|]. intros [? _]; lia.
Qed.

Lemma mask_length : length mask = n.
Proof. unfold mask. rewrite map_length. apply lc_length. Qed.

Lemma run_absorber : forall a b,
  maximal_run mask a b <-> absorber den (- roll) c (Z.of_nat a - roll) (Z.of_nat b - roll).
Proof.
  intros a b. unfold maximal_run, absorber. rewrite mask_length. fold n. split.
  - intros [[A B] [I [L U]]]. split; [lia|]. split; [lia|]. split; [|split].
    + intros i Hi. specialize (I (Z.to_nat (i + roll)) ltac:(lia)). apply mask_true in I.
      destruct I as [_ I]. rewrite Z2Nat.id in I by lia. replace (i + roll - roll)%Z with i in I by ring. exact I.
    + destruct L as [->|L]; [left; lia|right]. apply mask_false in L. destruct L as [_ L].
      destruct a as [|a]; [|replace (Z.of_nat (S a) - roll - 1)%Z with (Z.of_nat (S a - 1) - roll)%Z by lia; exact L].
      exfalso. specialize (I 0%nat ltac:(lia)). apply mask_true in I. cbn in L, I. lra.
    + destruct U as [->|U]; [left; lia|right]. apply mask_false in U. apply U.
  - intros [[A B] [B' [I [L U]]]]. split; [lia|]. split; [|split].
    + intros i Hi. apply mask_true. split; [lia|]. apply I. lia.
    + destruct L as [L|L]; [left; lia|]. destruct a as [|a]; [left; reflexivity|right].
      apply mask_false. split; [lia|].
      replace (Z.of_nat (S a - 1) - roll)%Z with (Z.of_nat (S a) - roll - 1)%Z by lia. exact L.
    + destruct U as [U|U]; [left; lia|]. destruct (Nat.eq_dec b n) as [->|Q]; [left; auto|right].
      apply mask_false. split; [lia|exact U].
Qed.

Definition unroll (r : nat * nat) : Z * Z := ((Z.of_nat (fst r) - roll)%Z, (Z.of_nat (snd r) - roll)%Z).

Lemma seps_spec : exists seps, combine_regions mask 0 = Some seps /\
  StronglySorted (fun r r' : Z * Z => (snd r < fst r')%Z) (map unroll seps) /\
  (forall a b, In (a, b) (map unroll seps) <-> absorber den (- roll) c a b) /\
  (forall r, In r seps -> (fst r <= snd r <= n)%nat) /\
  (forall i, (- roll <= i < - roll + Z.of_nat n)%Z -> c < IZR (pix den i) ->
     exists a b, In (a, b) (map unroll seps) /\ (a <= i < b)%Z).
Proof.
  assert (ME : mask <> []). { intros E. pose proof n_pos. rewrite <- mask_length, E in H. simpl in H. lia. }
  destruct (C35_regions_aux mask ME) as [regs [E [ST IN]]].
  exists regs. rewrite combine_zero by (auto; lia). split; [exact E|]. split; [|split; [|split]].
  - clear - ST. induction ST; cbn [map]; constructor; auto.
    rewrite Forall_forall in *. intros r' H'. apply in_map_iff in H' as [r0 [<- H0]].
    unfold unroll; cbn [fst snd]. specialize (H r0 H0). lia.
  - intros a b. split.
    + intros H. apply in_map_iff in H as [[a' b'] [Q H]]. unfold unroll in Q. cbn [fst snd] in Q.
      injection Q as <- <-. apply run_absorber, IN, H.
    + intros H. pose proof H as [[A B] [B' _]]. apply in_map_iff.
      exists (Z.to_nat (a + roll), Z.to_nat (b + roll)). unfold unroll; cbn [fst snd].
      rewrite !Z2Nat.id by lia. split; [f_equal; ring|]. apply IN, run_absorber. rewrite !Z2Nat.id by lia.
      replace (a + roll - roll)%Z with a by ring. replace (b + roll - roll)%Z with b by ring. exact H.
  - intros [a b] H. apply IN in H. destruct H as [[A B] _]. rewrite mask_length in B. cbn [fst snd]. lia.
  - intros i Hi C. destruct (combine_covers mask 0 regs (Z.to_nat (i + roll))) as [a [b [H1 H2]]]; auto.
    + rewrite combine_zero by (auto; lia). exact E.
    + apply mask_true. split; [lia|]. rewrite Z2Nat.id by lia. replace (i + roll - roll)%Z with i by ring. exact C.
    + exists (Z.of_nat a - roll)%Z, (Z.of_nat b - roll)%Z. split; [|lia].
      apply in_map_iff. exists (a, b). split; [reflexivity|exact H1].
Qed.

End Cut.

Lemma lc_max : forall p, peak den p -> SightlineModel.list_max lc = Some (nth p den 0%Z).
Proof.
  intros p [P1 [P2 P3]]. pose proof n_pos as NP. pose proof lc_length as LL.
  assert (F : forall l x, In (fold_left Z.max l x) (x :: l) /\ forall y, In y (x :: l) -> (y <= fold_left Z.max l x)%Z).
  { intros l; induction l as [|z l IH]; intros x; cbn [fold_left].
    - split; [left; auto|]. intros y [<-|[]]. lia.
    - destruct (IH (Z.max x z)) as [I1 I2]. split.
      + destruct I1 as [I1|I1]; [|right; right; auto].
        destruct (Z.max_spec x z) as [[_ E]|[_ E]]; rewrite E in I1 at 1; [right; left|left]; rewrite <- I1; try rewrite E; reflexivity.
      + intros y [<-|[<-|Y]].
        * specialize (I2 _ (or_introl eq_refl)). lia.
        * specialize (I2 _ (or_introl eq_refl)). lia.
        * apply I2. right; auto. }
  pose proof (SightlineProofs.roll_perm den roll) as PM. fold lc in PM.
  unfold SightlineModel.list_max. destruct lc as [|x t] eqn:E; [simpl in LL; lia|].
  destruct (F t x) as [M1 M2]. f_equal. set (m := fold_left Z.max t x) in *.
  apply Z.le_antisymm.
  - pose proof (Permutation.Permutation_in _ PM M1) as I. apply In_nth with (d := 0%Z) in I.
    destruct I as [i [I1 I2]]. rewrite <- I2. apply P2. exact I1.
  - apply M2. apply (Permutation.Permutation_in _ (Permutation.Permutation_sym PM)). apply nth_In. exact P1.
Qed.

End Rolled.

Lemma Forall2_map_both : forall A B C (P : B -> C -> Prop) (f : A -> B) (g : A -> C) l,
  (forall x, In x l -> P (f x) (g x)) -> Forall2 P (map f l) (map g l).
Proof. induction l; intros H; simpl; constructor; [apply H; left; auto|apply IHl; intros; apply H; right; auto]. Qed.

(** One sightline. *)
Lemma C73_one_aux : forall box thresh relthresh den p c, 0 < box -> peak den p ->
  is_level thresh relthresh (nth p den 0%Z) c ->
  let lo := (Z.of_nat p - Z.of_nat (length den / 2))%Z in
  exists roll lc zs runs, SightlineModel.roll_one_spectra den = Some (roll, lc) /\
    spectrum_regions box thresh relthresh (length den) roll lc = Some zs /\
    StronglySorted (fun r r' : Z * Z => (snd r < fst r')%Z) runs /\
    (forall a b, In (a, b) runs <-> absorber den lo c a b) /\
    (forall i, (lo <= i < lo + Z.of_nat (length den))%Z -> c < IZR (pix den i) ->
       exists a b, In (a, b) runs /\ (a <= i < b)%Z) /\
    Forall2 (fun r z => placed box (length den) (centroid den (fst r) (snd r)) z) runs zs.
Proof.
  intros box thresh relthresh den p c B P C lo.
  assert (NE : den <> []) by (intros ->; destruct P as [P _]; simpl in P; lia).
  set (roll := (Z.of_nat (length den / 2) - Z.of_nat p)%Z).
  exists roll, (SightlineModel.np_roll den roll).
  destruct (seps_spec den roll NE thresh relthresh c (nth p den 0%Z) C) as [seps [E [S1 [S2 [S3 S4]]]]].
  exists (map (region_pos box (length den) roll (SightlineModel.np_roll den roll)) seps), (map (unroll roll) seps).
  split; [apply roll_one; auto|]. split.
  - unfold spectrum_regions. rewrite (lc_max den roll NE p P). rewrite E. reflexivity.
  - replace lo with (- roll)%Z by (unfold lo, roll; lia).
    split; [exact S1|]. split; [exact S2|]. split; [exact S4|].
    apply Forall2_map_both. intros [a b] H. rewrite region_pos_centroid by (auto; apply (S3 _ H)).
    cbn [fst snd unroll]. apply float_mod_placed; [exact B|]. apply n_pos; auto.
Qed.
