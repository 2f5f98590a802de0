(** Proofs about distributions of metallicities and the moment of the column density function (C117, C118). *)
From Coq Require Import ZArith List Bool Reals Lra Lia Arith.
From Verif Require Import AbsorptionSpec AbsorptionProofs FluxModel FluxSpec FluxProofs FluxProofs2 FluxProofs3 CddfModel CddfSpec CddfProofs.
From Verif Require MetalModel MetalSpec MetalProofs MetalProofs2 HostsModel.
From Verif Require Import HostsSpec HostsProofs HostsProofs2 CorrelModel CorrelSpec CorrelProofs.
Import ListNotations.
Local Open Scope R_scope.

Lemma linspace_eq : forall a b n, linspace a b (S n) = map (spaced a ((b - a) / INR n)) (seq 0 (S n)).
Proof. intros a b n. unfold linspace. replace (S n - 1)%nat with n by lia. reflexivity. Qed.

Section Density.
Variables (a b : R) (n : nat) (l : list R).
Hypotheses (AB : a < b) (N : (0 < n)%nat).
Let w := (b - a) / INR n.
Let e := spaced a w.

Lemma density_some : forall t, number (fun x => a <= x <= b) l t -> (0 < t)%nat ->
  exists h, histogram_density l (linspace a b (S n)) = Some h /\ length h = n /\
    (forall i, (i < n)%nat -> exists m, number (within e n i) l m /\ nth i h 0 = INR m / w / INR t) /\
    total (map (fun y => y * w) h) = 1.
Proof.
  intros t T TP. assert (W : 0 < w) by (apply step_pos; assumption).
  assert (INC : forall i, (i < n)%nat -> e i < e (S i)) by (apply spaced_inc, W).
  assert (DV : forall i, e (S i) - e i = w) by (intros i; unfold e, spaced; rewrite S_INR; ring).
  destruct (spaced_ends n a b N) as [E0 E1]. fold w e in E0, E1.
  assert (T' : number (fun x => e 0%nat <= x <= e n) l t) by (rewrite E0, E1; exact T).
  assert (TOT := hist_total e n INC l t N T').
  exists (map (fun i => (cum e n l (S i) - cum e n l i) / w / INR t) (seq 0 n)).
  rewrite linspace_eq. fold w. fold e. assert (TR : 0 < INR t) by (apply lt_0_INR, TP).
  split; [exact (MetalProofs2.hist_density_eq e n l w t INC DV N TOT TP)|]. split; [rewrite map_length, seq_length; reflexivity|]. split.
  - intros i I. rewrite (nth_map_seq (fun i => (cum e n l (S i) - cum e n l i) / w / INR t)) by exact I.
    destruct (number_ex (inside e n i) (inside_dec e n i) l) as [m M]. exists m. split; [exact M|].
    rewrite (inside_number e n INC i l m I M). reflexivity.
  - rewrite map_map. rewrite (map_ext _ (fun i => / INR t * (cum e n l (S i) - cum e n l i))).
    + rewrite hist_eq in TOT. assert (SC := MetalProofs.sum_scal (/ INR t) (fun i => cum e n l (S i) - cum e n l i) (seq 0 n)).
      change MetalSpec.sum with total in SC. change rsum with total in TOT. rewrite SC, TOT. field. lra.
    + intros i. field. split; lra.
Qed.

Lemma density_none : number (fun x => a <= x <= b) l 0 -> histogram_density l (linspace a b (S n)) = None.
Proof.
  intros T. assert (W : 0 < w) by (apply step_pos; assumption).
  assert (INC : forall i, (i < n)%nat -> e i < e (S i)) by (apply spaced_inc, W).
  destruct (spaced_ends n a b N) as [E0 E1]. fold w e in E0, E1.
  assert (T' : number (fun x => e 0%nat <= x <= e n) l 0) by (rewrite E0, E1; exact T).
  assert (TOT := hist_total e n INC l 0%nat N T'). unfold histogram_density. rewrite linspace_eq. fold w. fold e. rewrite TOT.
  cbn [INR]. destruct (Req_EM_T 0 0); [reflexivity|contradiction].
Qed.
End Density.

(** Counting what survives a selection. *)
Lemma number_flat : forall {A} (f : A -> list R) (v : A -> R -> Prop) (P : R -> Prop) l m,
  (forall q, In q l -> (f q = [] /\ forall x, ~ v q x) \/ exists x, f q = [x] /\ forall y, v q y <-> y = x) ->
  number P (flat_map f l) m -> number (fun q => exists x, v q x /\ P x) l m.
Proof.
  intros A f v P. induction l as [|q l IH]; intros m F H; [inversion H; constructor|]. cbn [flat_map] in H.
  assert (F' : forall q, In q l -> (f q = [] /\ forall x, ~ v q x) \/ exists x, f q = [x] /\ forall y, v q y <-> y = x) by (intros; apply F; right; assumption).
  destruct (F q (or_introl eq_refl)) as [[E NV]|[x [E V]]]; rewrite E in H; cbn [app] in H.
  - constructor 3; [|apply IH; assumption]. intros [x [C _]]. exact (NV x C).
  - inversion H; subst.
    + constructor 2; [|apply IH; assumption]. exists x. split; [apply V; reflexivity|assumption].
    + constructor 3; [|apply IH; assumption]. intros [y [C D]]. apply V in C. subst y. contradiction.
Qed.

Definition the_log (q : MetalModel.quotient) (y : R) : Prop := exists x, q = MetalModel.Num x /\ 0 < x /\ y = lg x.

Lemma logs_number : forall (P : R -> Prop) l m, number P (finite_logs l) m -> number (fun q => exists x, q = MetalModel.Num x /\ 0 < x /\ P (lg x)) l m.
Proof.
  intros P l m H. unfold finite_logs in H. apply (number_flat _ the_log) in H; [revert H; apply number_iff|].
  - intros q _. split.
    + intros [y [[x [Q [X Y]]] PY]]. subst y. exists x. auto.
    + intros [x [Q [X PX]]]. exists (lg x). split; [exists x; auto|exact PX].
  - intros q _. destruct q as [x|].
    + destruct (Rlt_dec 0 x) as [X|X].
      * right. exists (log10 x). split; [reflexivity|]. intros y. split.
        -- intros [x' [Q [_ Y]]]. injection Q as <-. exact Y.
        -- intros ->. exists x. auto.
      * left. split; [reflexivity|]. intros y [x' [Q [X' _]]]. injection Q as <-. contradiction.
    + left. split; [reflexivity|]. intros y [x' [Q _]]. discriminate.
Qed.

Definition between_ends (a b x : R) : Prop := a <= x <= b.

Lemma range_dec : forall a b x, a <= x <= b \/ ~ a <= x <= b.
Proof. intros a b x. destruct (Rle_dec a x), (Rle_dec x b); [left; split; assumption|right; lra..]. Qed.

Lemma curve_centers : forall a b n, centers (linspace a b (S n)) =
  map (fun i => (spaced a ((b - a) / INR n) i + spaced a ((b - a) / INR n) (S i)) / 2) (seq 0 n).
Proof. intros a b n. rewrite linspace_eq, centers_map. reflexivity. Qed.

Lemma C117_metallicity_aux : forall n met, (0 < n)%nat ->
  let w := 3 / INR n in
  let e := spaced (- (3)) w in
  exists t, number (fun q => exists x, q = MetalModel.Num x /\ 0 < x /\ - (3) <= lg x <= 0) met t /\
    (t = 0%nat -> plot_metallicity (S n) met = None) /\
    ((0 < t)%nat -> exists X Y, plot_metallicity (S n) met = Some (X, Y) /\ length X = n /\ length Y = n /\
      (forall i, (i < n)%nat -> nth i X 0 = - (3) + (INR i + / 2) * w /\
         exists m, number (lg_within e n i) met m /\ nth i Y 0 = INR m / w / INR t) /\
      total (map (fun y => y * w) Y) = 1).
Proof.
  intros n met N w e. assert (Wq : w = (0 - - (3)) / INR n) by (unfold w; f_equal; lra).
  destruct (number_ex (fun x => - (3) <= x <= 0) (range_dec _ _) (finite_logs met)) as [t T]. exists t.
  split; [exact (logs_number _ _ _ T)|]. split.
  - intros ->. unfold plot_metallicity. rewrite (density_none (- (3)) 0 n) by first [lra | assumption]. reflexivity.
  - intros TP. destruct (density_some (- (3)) 0 n (finite_logs met) ltac:(lra) N t T TP) as [h [H [L [C TT]]]]. rewrite <- Wq in *. fold e in C.
    exists (centers (linspace (- (3)) 0 (S n))), h. unfold plot_metallicity. rewrite H. split; [reflexivity|].
    rewrite curve_centers, <- Wq. rewrite map_length, seq_length. split; [reflexivity|]. split; [exact L|]. split; [|exact TT].
    intros i I. rewrite (nth_map_seq (fun i => (spaced (- (3)) w i + spaced (- (3)) w (S i)) / 2)) by exact I. split.
    + unfold spaced. rewrite S_INR. lra.
    + destruct (C i I) as [m [M V]]. exists m. split; [exact (logs_number _ _ _ M)|exact V].
Qed.

Definition the_ratio (p : MetalModel.quotient * MetalModel.quotient) (y : R) : Prop :=
  exists m x, p = (MetalModel.Num m, MetalModel.Num x) /\ 0 < m /\ 0 < x /\ y = lg (x / m).

Lemma lg_ratio : forall x m, 0 < x -> 0 < m -> log10 x - log10 m = lg (x / m).
Proof. intros x m X M. unfold log10, lg, Rdiv. rewrite ln_mult, ln_Rinv by first [assumption | apply Rinv_0_lt_compat; assumption]. ring. Qed.

Lemma ratios_number : forall (P : R -> Prop) l m,
  number P (map log10 (flat_map (fun p => match p with
                 | (MetalModel.Num m, MetalModel.Num i) =>
                     if Rlt_dec 0 m then if Rlt_dec 0 i then [Rpower 10 (log10 i - log10 m)] else [] else []
                 | _ => []
                 end) l)) m ->
  number (fun p => exists m x, p = (MetalModel.Num m, MetalModel.Num x) /\ 0 < m /\ 0 < x /\ P (lg (x / m))) l m.
Proof.
  intros P l c H. apply (proj1 (number_map log10 P _ c)) in H.
  apply (number_flat _ (fun p y => exists z, y = Rpower 10 z /\ the_ratio p z)) in H; [revert H; apply number_iff|].
  - intros p _. split.
    + intros [y [[z [-> [m [x [Q [M [X ->]]]]]]] PY]]. exists m, x. change log10 with HostsModel.log10 in PY. rewrite log10_power in PY. auto.
    + intros [m [x [Q [M [X PX]]]]]. exists (Rpower 10 (lg (x / m))). split.
      * exists (lg (x / m)). split; [reflexivity|]. exists m, x. auto.
      * change log10 with HostsModel.log10. rewrite log10_power. exact PX.
  - intros [[m|] [x|]] _; try (left; split; [reflexivity|]; intros y [z [_ [m' [x' [Q _]]]]]; discriminate).
    destruct (Rlt_dec 0 m) as [M|M].
    + destruct (Rlt_dec 0 x) as [X|X].
      * right. exists (Rpower 10 (log10 x - log10 m)). split; [reflexivity|]. intros y. split.
        -- intros [z [-> [m' [x' [Q [_ [_ ->]]]]]]]. injection Q as <- <-. rewrite lg_ratio by assumption. reflexivity.
        -- intros ->. exists (lg (x / m)). split; [rewrite lg_ratio by assumption; reflexivity|]. exists m, x. auto.
      * left. split; [reflexivity|]. intros y [z [_ [m' [x' [Q [_ [X' _]]]]]]]. injection Q as <- <-. contradiction.
    + left. split; [reflexivity|]. intros y [z [_ [m' [x' [Q [M' _]]]]]]. injection Q as <- <-. contradiction.
Qed.

Lemma C117_ratio_aux : forall n pairs, (0 < n)%nat ->
  let w := 2 / INR n in
  let e := spaced (- (1)) w in
  exists t, number (fun p => exists m x, p = (MetalModel.Num m, MetalModel.Num x) /\ 0 < m /\ 0 < x /\ - (1) <= lg (x / m) <= 1) pairs t /\
    (t = 0%nat -> plot_ion_corr (S n) pairs = None) /\
    ((0 < t)%nat -> exists X Y, plot_ion_corr (S n) pairs = Some (X, Y) /\ length X = n /\ length Y = n /\
      (forall i, (i < n)%nat -> nth i X 0 = - (1) + (INR i + / 2) * w /\
         exists m, number (ratio_within e n i) pairs m /\ nth i Y 0 = INR m / w / INR t) /\
      total (map (fun y => y * w) Y) = 1).
Proof.
  intros n pairs N w e. assert (Wq : w = (1 - - (1)) / INR n) by (unfold w; f_equal; lra). unfold plot_ion_corr. cbv zeta.
  set (ls := map log10 _).
  destruct (number_ex (fun x => - (1) <= x <= 1) (range_dec _ _) ls) as [t T]. exists t.
  split; [exact (ratios_number _ _ _ T)|]. split.
  - intros ->. rewrite (density_none (- (1)) 1 n) by first [lra | assumption]. reflexivity.
  - intros TP. destruct (density_some (- (1)) 1 n ls ltac:(lra) N t T TP) as [h [H [L [C TT]]]]. rewrite <- Wq in *. fold e in C.
    exists (centers (linspace (- (1)) 1 (S n))), h. rewrite H. split; [reflexivity|].
    rewrite curve_centers, <- Wq. rewrite map_length, seq_length. split; [reflexivity|]. split; [exact L|]. split; [|exact TT].
    intros i I. rewrite (nth_map_seq (fun i => (spaced (- (1)) w i + spaced (- (1)) w (S i)) / 2)) by exact I. split.
    + unfold spaced. rewrite S_INR. lra.
    + destruct (C i I) as [m [M V]]. exists m. split; [exact (ratios_number _ _ _ M)|exact V].
Qed.

(** A common factor of all metallicities moves every ratio: the same factor in both leaves the plot. *)
Lemma C117_units_aux : forall n pairs c, 0 < c ->
  let f := fun q => match q with MetalModel.Num x => MetalModel.Num (c * x) | MetalModel.NotFinite => MetalModel.NotFinite end in
  plot_ion_corr n (map (fun p => (f (fst p), f (snd p))) pairs) = plot_ion_corr n pairs.
Proof.
  intros n pairs c C f. unfold plot_ion_corr. cbv zeta. match goal with |- match histogram_density (map _ ?A) _ with _ => _ end = match histogram_density (map _ ?B) _ with _ => _ end => assert (E : A = B) end; [|rewrite E; reflexivity].
  induction pairs as [|[q1 q2] l IH]; [reflexivity|]. cbn [map flat_map]. rewrite IH. f_equal. cbn [fst snd]. destruct q1 as [m|], q2 as [x|]; try reflexivity. unfold f. cbv beta iota.
  assert (P : forall x, 0 < c * x <-> 0 < x).
  { intros y. split; intros Y; [|apply Rmult_lt_0_compat; assumption]. apply (Rmult_lt_reg_l c); [exact C|]. rewrite Rmult_0_r. exact Y. }
  destruct (Rlt_dec 0 m) as [M|M], (Rlt_dec 0 (c * m)) as [M'|M']; try (exfalso; exact (M (proj1 (P _) M'))); try (exfalso; exact (M' (proj2 (P _) M))); [|reflexivity].
  destruct (Rlt_dec 0 x) as [X|X], (Rlt_dec 0 (c * x)) as [X'|X']; try (exfalso; exact (X (proj1 (P _) X'))); try (exfalso; exact (X' (proj2 (P _) X))); [|reflexivity].
  do 2 f_equal. rewrite !lg_ratio by assumption. f_equal. field. split; lra.
Qed.

(** ** The moment *)

Lemma sum_bounds : forall P l m s lo hi, number P l m -> sum_of P l s -> (forall x, P x -> lo <= x <= hi) -> INR m * lo <= s <= INR m * hi.
Proof.
  intros P l m s lo hi H. revert s. induction H as [|x l m X H IH|x l m X H IH]; intros s Q B; inversion Q; subst; try contradiction.
  - cbn [INR]. lra.
  - match goal with Hs : sum_of P l ?s0 |- _ => specialize (IH s0 Hs B) end. specialize (B x X). rewrite S_INR. lra.
  - apply IH; assumption.
Qed.

Lemma bin_edge_S : forall minN d i, bin_edge minN d (S i) = bin_edge minN d i * Rpower 10 d.
Proof. intros minN d i. unfold bin_edge. rewrite <- Rpower_plus. f_equal. rewrite S_INR. ring. Qed.

Lemma C118_plain_aux : forall dlogN minN maxN dist discarded line close dvbin rho,
  plot_cddf dlogN minN maxN dist discarded line close dvbin false rho = column_density_function (minN - 1) (maxN + 1) dlogN dist discarded line close dvbin rho.
Proof. intros. unfold plot_cddf. destruct (column_density_function _ _ _ _ _ _ _ _ _). reflexivity. Qed.

Lemma C118_moment_aux : forall dlogN minN maxN dist discarded line close dvbin rho,
  0 < dlogN -> minN - 1 < maxN + 1 -> 0 < dist -> rho <> [] ->
  exists a n X Y,
    absorbers_of line (close / dvbin) rho a /\
    minN - 1 + INR n * dlogN < maxN + 1 <= minN - 1 + INR (S n) * dlogN /\
    plot_cddf dlogN minN maxN dist discarded line close dvbin true rho = (X, Y) /\ length X = n /\ length Y = n /\
    forall i, (i < n)%nat ->
      let lo := bin_edge (minN - 1) dlogN i in
      let hi := bin_edge (minN - 1) dlogN (S i) in
      let estimate := nth i Y 0 * (hi - lo) * (dist * INR (length rho + discarded)) in
      nth i X 0 = (lo + hi) / 2 /\
      (exists m, number (falls_into (minN - 1) dlogN n i) a m /\ estimate = INR m * ((lo + hi) / 2)) /\
      forall s, sum_of (falls_into (minN - 1) dlogN n i) a s ->
        s * ((1 + / Rpower 10 dlogN) / 2) <= estimate <= s * ((1 + Rpower 10 dlogN) / 2).
Proof.
  intros dlogN minN maxN dist discarded line close dvbin rho D M DI RN.
  destruct (C26_counts_aux (minN - 1) (maxN + 1) dlogN dist discarded line close dvbin rho D M DI RN) as [a [n [ce [f [A [B [E [LC [LF [C _]]]]]]]]]].
  exists a, n, ce, (map (fun p => fst p * snd p) (combine f ce)). split; [exact A|]. split; [exact B|].
  split; [unfold plot_cddf; rewrite E; reflexivity|]. split; [exact LC|]. split; [rewrite map_length, combine_length, LF, LC; lia|].
  intros i I lo hi estimate. destruct (C i I) as [CE [m [NM V]]]. fold lo hi in CE, V.
  assert (EST : estimate = INR m * ((lo + hi) / 2)).
  { unfold estimate. assert (NT : nth i (map (fun p => fst p * snd p) (combine f ce)) 0 = nth i f 0 * nth i ce 0).
    { rewrite (nth_indep _ 0 ((fun p : R * R => fst p * snd p) (0, 0))) by (rewrite map_length, combine_length, LF, LC; lia).
      rewrite (map_nth (fun p : R * R => fst p * snd p)), combine_nth by lia. reflexivity. }
    rewrite NT, CE, <- V. ring. }
  split; [exact CE|]. split; [exists m; split; assumption|]. intros s Hs.
  assert (LP : 0 < lo) by (apply exp_pos). assert (HL : hi = lo * Rpower 10 dlogN) by apply bin_edge_S.
  assert (QP : 1 < Rpower 10 dlogN).
  { rewrite <- (Rpower_O 10) by lra. apply Rpower_lt; lra. }
  assert (SB : INR m * lo <= s <= INR m * hi).
  { apply (sum_bounds _ a m s lo hi NM Hs). intros x [L U]. fold lo in L. destruct U as [U|[U U']].
    - fold hi in U. lra.
    - rewrite <- U in U'. fold hi in U'. lra. }
  rewrite EST, HL. set (q := Rpower 10 dlogN) in *. rewrite HL in SB. assert (IQ : 0 < / q) by (apply Rinv_0_lt_compat; lra).
  assert (QI : / q * q = 1) by (apply Rinv_l; lra). split.
  - apply Rle_trans with (INR m * (lo * q) * ((1 + / q) / 2)).
    + apply Rmult_le_compat_r; lra.
    + right. replace (INR m * (lo * q) * ((1 + / q) / 2)) with (INR m * lo * ((q + / q * q) / 2)) by lra. rewrite QI. lra.
  - apply Rle_trans with (INR m * lo * ((1 + q) / 2)).
    + right. lra.
    + apply Rmult_le_compat_r; lra.
Qed.
