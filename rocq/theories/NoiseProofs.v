(** Proofs about noise. *)
From Coq Require Import Reals List Bool ZArith Arith Lia Lra.
From Verif Require Import NoiseModel NoiseSpec.
Import ListNotations.
Local Open Scope R_scope.

Section Gen.
Variable r : generator.

Lemma np_seed_ok : forall s, (0 <= s < 2 ^ 32)%Z -> np_seed r s = Some (seed_state r s).
Proof.
  intros s [A B]. unfold np_seed. apply Z.leb_le in A. apply Z.ltb_lt in B. now rewrite A, B.
Qed.

Lemma np_seed_some : forall s g, np_seed r s = Some g -> (0 <= s < 2 ^ 32)%Z /\ g = seed_state r s.
Proof.
  intros s g H. unfold np_seed in H. destruct ((0 <=? s) && (s <? 2 ^ 32))%Z eqn:E; [|discriminate].
  apply andb_true_iff in E as [A B]. apply Z.leb_le in A. apply Z.ltb_lt in B. split; [lia|congruence].
Qed.

Lemma py_get_nat : forall a i, py_get a (Z.of_nat i) = nth_error a i.
Proof.
  intros a i. unfold py_get.
  destruct (Z.leb_spec 0 (Z.of_nat i)); [|lia]. cbn [andb].
  destruct (Z.ltb_spec (Z.of_nat i) (Z.of_nat (length a))).
  - now rewrite Nat2Z.id.
  - destruct (Z.leb_spec (- Z.of_nat (length a)) (Z.of_nat i)); cbn [andb];
      destruct (Z.ltb_spec (Z.of_nat i) 0); try lia; symmetry; apply nth_error_None; lia.
Qed.

Lemma draws_spec : forall scale n g,
  length (fst (draws r scale n g)) = n.
Proof.
  intros scale. induction n as [|n IH]; intros g; cbn [draws]; auto.
  destruct (gauss r g) as [x g1]. specialize (IH g1).
  destruct (draws r scale n g1) as [xs g2]. cbn [fst length] in *. lia.
Qed.

Fixpoint after (k : nat) (g : G r) : G r :=
  match k with 0%nat => g | S k' => after k' (snd (gauss r g)) end.

Lemma after_S : forall k g, after (S k) g = snd (gauss r (after k g)).
Proof. induction k as [|k IH]; intros g; auto. cbn [after] in *. now rewrite IH. Qed.

Lemma after_state : forall k s, after k (seed_state r s) = state_at r s k.
Proof. induction k as [|k IH]; intros s; auto. rewrite after_S, IH. reflexivity. Qed.

Lemma draws_nth : forall scale n g k, (k < n)%nat ->
  nth_error (fst (draws r scale n g)) k = Some (scale * fst (gauss r (after k g))).
Proof.
  intros scale. induction n as [|n IH]; intros g k K; [lia|]. cbn [draws].
  destruct (gauss r g) as [x g1] eqn:E. specialize (IH g1).
  destruct (draws r scale n g1) as [xs g2]. cbn [fst] in *.
  destruct k as [|k]; cbn [nth_error after].
  - now rewrite E.
  - rewrite E. cbn [snd]. apply IH. lia.
Qed.

(** The noise of one spectrum *)
Lemma noise_for_ok : forall nbins snr i s, (Z.of_nat i < 2 ^ 32)%Z ->
  nth_error snr i = Some s -> 0 < s ->
  exists noise g, noise_for r nbins snr (Z.of_nat i) = Some (noise, g) /\
    length noise = nbins /\
    forall k, (k < nbins)%nat -> nth_error noise k = Some (1 / s * stream r (Z.of_nat i) k).
Proof.
  intros nbins snr i s I SN P. unfold noise_for. rewrite np_seed_ok by lia.
  rewrite py_get_nat, SN. unfold np_normals.
  assert (0 < 1 / s) by (apply Rmult_lt_0_compat; [lra | now apply Rinv_0_lt_compat]).
  destruct (Rlt_dec (1 / s) 0); [lra|].
  destruct (draws r (1 / s) nbins (seed_state r (Z.of_nat i))) as [noise g] eqn:D.
  exists noise, g. split; auto.
  pose proof (draws_spec (1 / s) nbins (seed_state r (Z.of_nat i))) as L.
  pose proof (draws_nth (1 / s) nbins (seed_state r (Z.of_nat i))) as N.
  rewrite D in L, N. cbn [fst] in L, N. split; auto. intros k K. rewrite (N k K).
  unfold stream. now rewrite after_state.
Qed.

(** The arrays which are refused. *)
Lemma noise_for_bad : forall nbins snr i, (forall s, nth_error snr i = Some s -> s < 0) -> noise_for r nbins snr (Z.of_nat i) = None.
Proof.
  intros nbins snr i H. unfold noise_for. destruct (np_seed r (Z.of_nat i)) as [g|]; [|reflexivity]. rewrite py_get_nat.
  destruct (nth_error snr i) as [s|] eqn:E; [|reflexivity]. specialize (H s eq_refl). unfold np_normals.
  destruct (Rlt_dec (1 / s) 0) as [_|N]; [reflexivity|]. exfalso. apply N. unfold Rdiv. rewrite Rmult_1_l. apply Rinv_lt_0_compat. exact H.
Qed.

Lemma noise_loop_bad : forall nbins snr rows ii acc g j, (j < length rows)%nat ->
  (forall s, nth_error snr (ii + j) = Some s -> s < 0) -> noise_loop r nbins snr ii rows acc g = None.
Proof.
  intros nbins snr. induction rows as [|row rows IH]; intros ii acc g j Hj H; cbn [length] in Hj; [lia|]. cbn [noise_loop].
  destruct j as [|j].
  - rewrite Nat.add_0_r in H. rewrite noise_for_bad by exact H. reflexivity.
  - destruct (noise_for r nbins snr (Z.of_nat ii)) as [[noise g1]|]; [|reflexivity].
    rewrite (IH (S ii) (acc ++ noise) g1 j); [|lia|].
    + destruct (add_rows row noise); reflexivity.
    + intros s E. apply H. rewrite <- E. f_equal. lia.
Qed.

Lemma C44_refused_aux : forall nbins snr i g row rows spec_num,
  (forall s, nth_error snr i = Some s -> s < 0) ->
  add_noise r nbins snr (One row) (Z.of_nat i) g = Raise /\
  add_noise r nbins snr (Rows [row]) (Z.of_nat i) g = Raise /\
  (length rows <> 1%nat -> (i < length rows)%nat -> add_noise r nbins snr (Rows rows) spec_num g = Raise).
Proof.
  intros nbins snr i g row rows spec_num H. unfold add_noise. rewrite noise_for_bad by exact H.
  split; [reflexivity|]. split; [reflexivity|]. intros L I.
  destruct rows as [|a [|b rows]]; cbn [length] in L, I; [lia|congruence|].
  rewrite (noise_loop_bad nbins snr (a :: b :: rows) 0 [] g i); [reflexivity|exact I|exact H].
Qed.

Lemma add_rows_spec : forall a b, length a = length b ->
  exists c, add_rows a b = Some c /\ length c = length a /\
  forall k x y, nth_error a k = Some x -> nth_error b k = Some y -> nth_error c k = Some (x + y).
Proof.
  induction a as [|x a IH]; intros [|y b] L; cbn [length] in L; try discriminate; cbn [add_rows].
  - exists []. repeat split. intros [|k]; discriminate.
  - destruct (IH b) as (c & -> & LC & N); [lia|]. exists (x + y :: c). cbn [option_map length].
    repeat split; auto. intros [|k] u v; cbn [nth_error]; auto. congruence.
Qed.

Lemma noisy_row : forall nbins snr i s row, (Z.of_nat i < 2 ^ 32)%Z ->
  nth_error snr i = Some s -> 0 < s -> length row = nbins ->
  exists noise g row', noise_for r nbins snr (Z.of_nat i) = Some (noise, g) /\
    add_rows row noise = Some row' /\ noisy r (Z.of_nat i) s row row' /\
    length noise = nbins /\
    forall k, (k < nbins)%nat -> nth_error noise k = Some (1 / s * stream r (Z.of_nat i) k).
Proof.
  intros nbins snr i s row I SN P L.
  destruct (noise_for_ok nbins snr i s I SN P) as (noise & g & E & LN & N).
  destruct (add_rows_spec row noise) as (row' & A & LR & V); [lia|].
  exists noise, g, row'. split; [exact E|]. split; [exact A|]. split; [|split; auto].
  split; auto. intros k x K. apply V; auto. apply N. rewrite <- L. apply nth_error_Some. congruence.
Qed.

Lemma nth_error_app_at : forall {A} (a b : list A) k, nth_error (a ++ b) (length a + k) = nth_error b k.
Proof. intros A. induction a as [|x a IH]; intros b k; cbn; auto. Qed.

Lemma noise_loop_ok : forall nbins snr rows ii acc g,
  (Z.of_nat (ii + length rows) <= 2 ^ 32)%Z ->
  Forall (fun row => length row = nbins) rows ->
  (forall j, (j < length rows)%nat -> exists s, nth_error snr (ii + j) = Some s /\ 0 < s) ->
  exists rs noise g', noise_loop r nbins snr ii rows acc g = Some (rs, acc ++ noise, g') /\
    length rs = length rows /\ length noise = (length rows * nbins)%nat /\
    (forall j row s, nth_error rows j = Some row -> nth_error snr (ii + j) = Some s ->
       exists row', nth_error rs j = Some row' /\ noisy r (Z.of_nat (ii + j)) s row row') /\
    (forall j k s, (j < length rows)%nat -> (k < nbins)%nat -> nth_error snr (ii + j) = Some s ->
       nth_error noise (j * nbins + k) = Some (1 / s * stream r (Z.of_nat (ii + j)) k)).
Proof.
  intros nbins snr. induction rows as [|row rows IH]; intros ii acc g LE F SN; cbn [noise_loop].
  - exists [], [], g. rewrite app_nil_r. repeat split; auto.
    + intros [|j]; discriminate.
    + cbn [length]. intros. lia.
  - inversion F as [|? ? LR F']; subst. cbn [length] in LE.
    destruct (SN 0%nat) as (s & SE & SP); [cbn; lia|]. rewrite Nat.add_0_r in SE.
    destruct (noisy_row (length row) snr ii s row) as (noise & g1 & row' & E & A & NY & LN & NN); auto; [lia|].
    rewrite E, A.
    destruct (IH (S ii) (acc ++ noise) g1) as (rs & noise2 & g2 & E2 & L2 & L3 & R2 & N2); auto.
    { lia. }
    { intros j J. destruct (SN (1 + j)%nat) as (s' & H); [cbn; lia|].
      exists s'. replace (S ii + j)%nat with (ii + (1 + j))%nat by lia. exact H. }
    rewrite E2. exists (row' :: rs), (noise ++ noise2), g2. rewrite app_assoc. cbn [length].
    split; auto. split; [lia|]. split; [rewrite app_length; lia|]. split.
    + intros [|j] row0 s0; cbn [nth_error].
      * rewrite Nat.add_0_r. intros X Y. injection X as <-. rewrite SE in Y. injection Y as <-. eauto.
      * intros X Y. replace (ii + S j)%nat with (S ii + j)%nat in * by lia. eauto.
    + intros [|j] k s0 J K.
      * rewrite Nat.add_0_r, Nat.mul_0_l, Nat.add_0_l. intros Y. rewrite SE in Y. injection Y as <-.
        rewrite nth_error_app1 by lia. auto.
      * replace (ii + S j)%nat with (S ii + j)%nat in * by lia. intros Y.
        replace (S j * length row + k)%nat with (length noise + (j * length row + k))%nat by lia.
        rewrite nth_error_app_at. apply N2; auto. lia.
Qed.

Lemma C44_noise_all_aux : forall nbins snr rows spec_num g,
  length rows <> 1%nat -> (Z.of_nat (length rows) <= 2 ^ 32)%Z ->
  Forall (fun row => length row = nbins) rows ->
  (forall j, (j < length rows)%nat -> exists s, nth_error snr j = Some s /\ 0 < s) ->
  exists rs noise g', add_noise r nbins snr (Rows rows) spec_num g = Done (Rows rs) noise g' /\
    length rs = length rows /\ length noise = (length rows * nbins)%nat /\
    (forall j row s, nth_error rows j = Some row -> nth_error snr j = Some s ->
       exists row', nth_error rs j = Some row' /\ noisy r (Z.of_nat j) s row row') /\
    (forall j k s, (j < length rows)%nat -> (k < nbins)%nat -> nth_error snr j = Some s ->
       nth_error noise (j * nbins + k) = Some (1 / s * stream r (Z.of_nat j) k)).
Proof.
  intros nbins snr rows spec_num g N1 LE F SN.
  destruct (noise_loop_ok nbins snr rows 0 [] g LE F SN) as (rs & noise & g' & E & H).
  exists rs, noise, g'. split; [|exact H]. cbn [app] in E.
  unfold add_noise. destruct rows as [|row [|row2 rows]]; [| cbn in N1; lia |]; now rewrite E.
Qed.

Lemma C44_noise_one_aux : forall nbins snr row i s g,
  (Z.of_nat i < 2 ^ 32)%Z -> nth_error snr i = Some s -> 0 < s -> length row = nbins ->
  exists row', noisy r (Z.of_nat i) s row row' /\
    (exists g', add_noise r nbins snr (One row) (Z.of_nat i) g = Done (One row') [] g') /\
    (exists g', add_noise r nbins snr (Rows [row]) (Z.of_nat i) g = Done (Rows [row']) [] g').
Proof.
  intros nbins snr row i s g I SN P L.
  destruct (noisy_row nbins snr i s row I SN P L) as (noise & g1 & row' & E & A & NY & _).
  exists row'. split; auto. unfold add_noise. rewrite E, A. split; eauto.
Qed.

Lemma C44_history_aux : forall nbins snr f spec_num g1 g2,
  same_result (add_noise r nbins snr f spec_num g1) (add_noise r nbins snr f spec_num g2).
Proof.
  intros nbins snr f spec_num g1 g2. unfold add_noise.
  assert (SELF : forall a : outcome (G r), same_result a a) by (intros []; cbn; auto).
  destruct f as [row | [|row [|row2 rows]]]; try apply SELF.
  cbn. auto.
Qed.

Lemma C44_negative_aux : forall nbins snr row spec_num g fuel ce hi lo, (spec_num < 0)%Z ->
  add_noise r nbins snr (One row) spec_num g = Raise /\
  add_noise r nbins snr (Rows [row]) spec_num g = Raise /\
  add_cont_error r fuel ce (One row) spec_num hi lo g = CRaise /\
  add_cont_error r fuel ce (Rows [row]) spec_num hi lo g = CRaise.
Proof.
  intros nbins snr row spec_num g fuel ce hi lo H. unfold add_noise, add_cont_error, noise_for, delta_for.
  assert (NEG : forall z, (z < 0)%Z -> np_seed r z = None).
  { intros z Z. unfold np_seed. destruct (Z.leb_spec 0 z); [lia|]. reflexivity. }
  rewrite !NEG by lia. auto.
Qed.

Lemma C44_twice_aux : forall nbins snr row i s g,
  (Z.of_nat i < 2 ^ 32)%Z -> nth_error snr i = Some s -> 0 < s -> length row = nbins ->
  exists row1 row2 g1 g2,
    add_noise r nbins snr (One row) (Z.of_nat i) g = Done (One row1) [] g1 /\
    add_noise r nbins snr (One row1) (Z.of_nat i) g1 = Done (One row2) [] g2 /\
    forall k x, nth_error row k = Some x ->
      nth_error row2 k = Some (x + 2 * (1 / s * stream r (Z.of_nat i) k)).
Proof.
  intros nbins snr row i s g I SN P L.
  destruct (C44_noise_one_aux nbins snr row i s g I SN P L) as (row1 & (L1 & N1) & (g1 & E1) & _).
  destruct (C44_noise_one_aux nbins snr row1 i s g1 I SN P) as (row2 & (L2 & N2) & (g2 & E2) & _); [lia|].
  exists row1, row2, g1, g2. split; auto. split; auto. intros k x K.
  apply N1 in K. apply N2 in K. rewrite K. f_equal. ring.
Qed.

(** ** Continuum error *)

Lemma redraw_spec : forall scale lo hi fuel g, 0 <= scale ->
  (exists d g', redraw r scale lo hi fuel g = Some (Some (d, g')) /\
     exists k, (k < fuel)%nat /\ d = scale * fst (gauss r (after k g)) /\ lo <= d <= hi /\
       forall m, (m < k)%nat -> ~ lo <= scale * fst (gauss r (after m g)) <= hi) \/
  (redraw r scale lo hi fuel g = Some None /\
     forall m, (m < fuel)%nat -> ~ lo <= scale * fst (gauss r (after m g)) <= hi).
Proof.
  intros scale lo hi. induction fuel as [|fuel IH]; intros g P; cbn [redraw].
  - right. split; auto. intros; lia.
  - unfold np_normal. destruct (Rlt_dec scale 0); [lra|].
    destruct (gauss r g) as [x g1] eqn:E.
    assert (GO : ~ lo <= scale * x <= hi ->
      (exists d g', redraw r scale lo hi fuel g1 = Some (Some (d, g')) /\
         exists k, (k < S fuel)%nat /\ d = scale * fst (gauss r (after k g)) /\ lo <= d <= hi /\
           forall m, (m < k)%nat -> ~ lo <= scale * fst (gauss r (after m g)) <= hi) \/
      (redraw r scale lo hi fuel g1 = Some None /\
         forall m, (m < S fuel)%nat -> ~ lo <= scale * fst (gauss r (after m g)) <= hi)).
    { intros OUT. destruct (IH g1 P) as [(d & g' & D & k & K & KD & B & M) | (D & M)]; [left|right].
      - exists d, g'. split; auto. exists (S k). split; [lia|]. cbn [after]. rewrite E. cbn [snd].
        split; auto. split; auto. intros [|m] MK; cbn [after]; rewrite E; auto. apply M. lia.
      - split; auto. intros [|m] MK; cbn [after]; rewrite E; auto. apply M. lia. }
    destruct (Rlt_dec (scale * x) lo); [apply GO; lra|].
    destruct (Rlt_dec hi (scale * x)); [apply GO; lra|].
    left. exists (scale * x), g1. split; auto. exists 0%nat. split; [lia|]. cbn [after].
    rewrite E. split; auto. split; [lra|]. intros; lia.
Qed.

Lemma delta_for_spec : forall ce lo hi fuel i s, (2 * Z.of_nat i < 2 ^ 32)%Z ->
  nth_error ce i = Some s -> 0 <= s ->
  (exists d g', delta_for r ce lo hi fuel (Z.of_nat i) = Some (Some (d, g')) /\
     first_within r (Z.of_nat i) s lo hi d) \/
  (delta_for r ce lo hi fuel (Z.of_nat i) = Some None /\
     forall m, (m < fuel)%nat -> ~ lo <= s * stream r (2 * Z.of_nat i) m <= hi).
Proof.
  intros ce lo hi fuel i s I SN P. unfold delta_for. rewrite np_seed_ok by lia.
  rewrite py_get_nat, SN.
  destruct (redraw_spec s lo hi fuel (seed_state r (2 * Z.of_nat i)) P)
    as [(d & g' & D & k & K & KD & B & M) | (D & M)]; [left|right].
  - exists d, g'. split; auto. exists k. rewrite after_state in KD. split; [exact KD|].
    split; auto. intros m MK. specialize (M m MK). now rewrite after_state in M.
  - split; auto. intros m MK. specialize (M m MK). now rewrite after_state in M.
Qed.

Lemma first_within_det : forall i s lo hi d d',
  first_within r i s lo hi d -> first_within r i s lo hi d' -> d = d'.
Proof.
  intros i s lo hi d d' (k & D & B & M) (k' & D' & B' & M').
  destruct (lt_eq_lt_dec k k') as [[L | L] | L].
  - exfalso. apply (M' k L). rewrite <- D. exact B.
  - now subst.
  - exfalso. apply (M k' L). rewrite <- D'. exact B'.
Qed.

Lemma cont_loop_ok : forall ce lo hi fuel rows ii g rs ds g',
  (2 * Z.of_nat (ii + length rows) <= 2 ^ 32)%Z ->
  (forall j, (j < length rows)%nat -> exists s, nth_error ce (ii + j) = Some s /\ 0 <= s) ->
  cont_loop r ce lo hi fuel ii rows g = Some (Some (rs, ds, g')) ->
  length rs = length rows /\ length ds = length rows /\
  forall j row s, nth_error rows j = Some row -> nth_error ce (ii + j) = Some s ->
    exists d, nth_error ds j = Some d /\ first_within r (Z.of_nat (ii + j)) s lo hi d /\
      nth_error rs j = Some (map (fun x => x / (1 + d)) row).
Proof.
  intros ce lo hi fuel. induction rows as [|row rows IH]; intros ii g rs ds g' LE SN E; cbn [cont_loop] in E.
  - injection E as <- <- <-. repeat split; auto. intros [|j]; discriminate.
  - cbn [length] in LE. destruct (SN 0%nat) as (s & SE & SP); [cbn; lia|]. rewrite Nat.add_0_r in SE.
    destruct (delta_for_spec ce lo hi fuel ii s) as [(d & g1 & D & FW) | (D & _)]; auto; try lia; rewrite D in E.
    2: discriminate.
    destruct (cont_loop r ce lo hi fuel (S ii) rows g1) as [[[[rs1 ds1] g2]|]|] eqn:E1; try discriminate.
    injection E as <- <- <-.
    destruct (IH (S ii) g1 rs1 ds1 g2) as (L1 & L2 & H); auto.
    { lia. }
    { intros j J. destruct (SN (1 + j)%nat) as (s' & H); [cbn; lia|].
      exists s'. replace (S ii + j)%nat with (ii + (1 + j))%nat by lia. exact H. }
    cbn [length]. split; [lia|]. split; [lia|].
    intros [|j] row0 s0; cbn [nth_error].
    + rewrite Nat.add_0_r. intros X Y. injection X as <-. rewrite SE in Y. injection Y as <-. eauto.
    + intros X Y. replace (ii + S j)%nat with (S ii + j)%nat in * by lia. eauto.
Qed.

Lemma C44_delta_all_aux : forall fuel ce rows spec_num hi lo g rs ds g',
  length rows <> 1%nat -> (2 * Z.of_nat (length rows) <= 2 ^ 32)%Z ->
  (forall j, (j < length rows)%nat -> exists s, nth_error ce j = Some s /\ 0 <= s) ->
  add_cont_error r fuel ce (Rows rows) spec_num hi lo g = CDone (Rows rs) ds g' ->
  length rs = length rows /\ length ds = length rows /\
  forall j row s, nth_error rows j = Some row -> nth_error ce j = Some s ->
    exists d, nth_error ds j = Some d /\ first_within r (Z.of_nat j) s lo hi d /\
      nth_error rs j = Some (map (fun x => x / (1 + d)) row).
Proof.
  intros fuel ce rows spec_num hi lo g rs ds g' N1 LE SN E.
  assert (E' : cont_loop r ce lo hi fuel 0 rows g = Some (Some (rs, ds, g'))).
  { unfold add_cont_error in E. destruct rows as [|row [|row2 rows]]; [| cbn in N1; lia |].
    - cbn in *. congruence.
    - destruct (cont_loop r ce lo hi fuel 0 (row :: row2 :: rows) g) as [[[[a b] c]|]|]; congruence. }
  now apply (cont_loop_ok ce lo hi fuel rows 0 g rs ds g') in E'.
Qed.

Lemma C44_delta_one_aux : forall ce row i s hi lo g,
  (2 * Z.of_nat i < 2 ^ 32)%Z -> nth_error ce i = Some s -> 0 <= s ->
  (forall fuel f ds g', add_cont_error r fuel ce (One row) (Z.of_nat i) hi lo g = CDone f ds g' ->
     exists d, first_within r (Z.of_nat i) s lo hi d /\ ds = [d] /\ f = One (map (fun x => x / (1 + d)) row)) /\
  (forall fuel, add_cont_error r fuel ce (One row) (Z.of_nat i) hi lo g <> CRaise) /\
  ((exists fuel, add_cont_error r fuel ce (One row) (Z.of_nat i) hi lo g <> CLoops) <->
   exists k, lo <= s * stream r (2 * Z.of_nat i) k <= hi).
Proof.
  intros ce row i s hi lo g I SN P. split; [|split; [|split]].
  - intros fuel f ds g' E. unfold add_cont_error in E.
    destruct (delta_for_spec ce lo hi fuel i s I SN P) as [(d & g1 & D & FW) | (D & _)]; rewrite D in E; [|discriminate].
    injection E as <- <- <-. eauto.
  - intros fuel. unfold add_cont_error.
    destruct (delta_for_spec ce lo hi fuel i s I SN P) as [(d & g1 & D & FW) | (D & _)]; rewrite D; discriminate.
  - intros [fuel E]. unfold add_cont_error in E.
    destruct (delta_for_spec ce lo hi fuel i s I SN P) as [(d & g1 & D & FW) | (D & _)]; rewrite D in E.
    + destruct FW as (k & -> & B & _). eauto.
    + congruence.
  - intros [k K]. exists (S k). unfold add_cont_error.
    destruct (delta_for_spec ce lo hi (S k) i s I SN P) as [(d & g1 & D & FW) | (D & M)]; rewrite D; [discriminate|].
    exfalso. apply (M k); auto.
Qed.

Lemma C44_range_aux : forall i s lo hi d x, first_within r i s lo hi d -> -1 < lo -> 0 <= x ->
  x / (1 + hi) <= x / (1 + d) <= x / (1 + lo) /\ (0 < x -> 0 < x / (1 + d)).
Proof.
  intros i s lo hi d x (_ & _ & [A B] & _) L X. split; [split|].
  - apply Rmult_le_compat_l; auto. apply Rinv_le_contravar; lra.
  - apply Rmult_le_compat_l; auto. apply Rinv_le_contravar; lra.
  - intros XP. apply Rmult_lt_0_compat; auto. apply Rinv_0_lt_compat. lra.
Qed.

(** The two kinds of error are not independent. *)
Lemma C44_correlated_aux : forall nbins snr rows n1 g fs noise g' fuel ce rows2 n2 hi lo h rs ds h' i s c,
  add_noise r nbins snr (Rows rows) n1 g = Done fs noise g' ->
  add_cont_error r fuel ce (Rows rows2) n2 hi lo h = CDone (Rows rs) ds h' ->
  (Z.of_nat (length rows) <= 2 ^ 32)%Z -> length rows <> 1%nat ->
  Forall (fun row => length row = nbins) rows -> (0 < nbins)%nat ->
  (forall j, (j < length rows)%nat -> exists s, nth_error snr j = Some s /\ 0 < s) ->
  (2 * Z.of_nat (length rows2) <= 2 ^ 32)%Z -> length rows2 <> 1%nat ->
  (forall j, (j < length rows2)%nat -> exists s, nth_error ce j = Some s /\ 0 <= s) ->
  (2 * i < length rows)%nat -> (i < length rows2)%nat ->
  nth_error snr (2 * i) = Some s -> nth_error ce i = Some c ->
  exists e, nth_error noise (2 * i * nbins) = Some e /\
    (lo <= c * (s * e) <= hi -> nth_error ds i = Some (c * (s * e))).
Proof.
  intros nbins snr rows n1 g fs noise g' fuel ce rows2 n2 hi lo h rs ds h' i s c
    EN EC L1 N1 F NB SN L2 N2 C I1 I2 SI CI.
  destruct (C44_noise_all_aux nbins snr rows n1 g N1 L1 F SN) as (rs1 & noise1 & g1 & E1 & _ & _ & _ & V).
  rewrite EN in E1. injection E1 as -> -> ->.
  destruct (C44_delta_all_aux _ _ _ _ _ _ _ _ _ _ N2 L2 C EC) as (_ & _ & D).
  exists (1 / s * stream r (Z.of_nat (2 * i)) 0). split.
  { rewrite <- (Nat.add_0_r (2 * i * nbins)). now apply V. }
  assert (0 < s). { destruct (SN (2 * i)%nat I1) as (s' & X & Y). rewrite SI in X. injection X as <-. auto. }
  assert (EQ : s * (1 / s * stream r (Z.of_nat (2 * i)) 0) = stream r (2 * Z.of_nat i) 0).
  { replace (Z.of_nat (2 * i)) with (2 * Z.of_nat i)%Z by lia. field. lra. }
  rewrite EQ. intros B.
  destruct (nth_error rows2 i) as [row|] eqn:RI; [|apply nth_error_None in RI; lia].
  destruct (D i row c RI CI) as (d & DI & FW & _). rewrite DI. f_equal.
  destruct FW as (k & KD & KB & M). destruct k as [|k]; auto.
  exfalso. apply (M 0%nat); [lia|exact B].
Qed.
End Gen.
