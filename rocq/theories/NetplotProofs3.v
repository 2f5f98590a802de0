(** The grid of the plots. *)
From Coq Require Import Reals List Bool Arith Lia Lra Permutation Sorted.
From Verif Require Import RatesModel RatesSpec RatesProofs IoniseSpec IoniseProofs IoniseProofs2 IoniseProofs3 IoniseProofs4.
From Verif Require Import NetplotModel NetplotSpec NetplotProofs NetplotProofs2.
From Verif Require GridModel GridProofs3 TempdensModel TempdensSpec TempdensProofs2.
Import ListNotations.
Local Open Scope R_scope.

Lemma concat_nth : forall (A B : Type) (f : B -> list A) k l i j y, (forall b, length (f b) = k) -> nth_error l j = Some y -> (i < k)%nat ->
  nth_error (concat (map f l)) (k * j + i) = nth_error (f y) i.
Proof.
  intros A B f k l i j y LEN. revert j. induction l as [|b l IH]; intros j NJ I; [destruct j; discriminate|].
  cbn [map concat]. destruct j as [|j].
  - injection NJ as <-. rewrite Nat.mul_0_r. apply nth_error_app1. now rewrite LEN.
  - cbn [nth_error] in NJ. rewrite nth_error_app2; rewrite LEN; [|nia]. replace (k * S j + i - k)%nat with (k * j + i)%nat by nia. now apply IH.
Qed.

Lemma concat_len : forall (A B : Type) (f : B -> list A) k l, (forall b, length (f b) = k) -> length (concat (map f l)) = (length l * k)%nat.
Proof.
  intros A B f k l LEN. induction l as [|b l IH]; [reflexivity|]. cbn [map concat length]. rewrite app_length, LEN, IH. lia.
Qed.

Lemma linspace_nth : forall lo hi n i, (i < n)%nat -> nth_error (GridModel.linspace lo hi n) i = Some (lo + INR i * ((hi - lo) / INR (n - 1))).
Proof.
  intros lo hi n i I. unfold GridModel.linspace. rewrite nth_error_map.
  rewrite (nth_error_nth' (seq 0 n) 0%nat) by now rewrite seq_length. rewrite seq_nth by exact I. reflexivity.
Qed.

Lemma linspace_len : forall lo hi n, length (GridModel.linspace lo hi n) = n.
Proof. intros. unfold GridModel.linspace. rewrite map_length. apply seq_length. Qed.

Definition axis : list R := map (Rpower 10) (GridModel.linspace (-6) (-2) 100).
Definition energies : list R := GridModel.linspace 100 700 100.

Lemma inr99 : INR (100 - 1) = 99.
Proof. rewrite INR_IZR_INZ. reflexivity. Qed.

Lemma axis_nth : forall i, (i < 100)%nat -> nth_error axis i = Some (axis_density i).
Proof.
  intros i I. unfold axis. rewrite nth_error_map, linspace_nth by exact I. cbn [option_map]. rewrite inr99. unfold axis_density.
  do 2 f_equal. lra.
Qed.

Lemma energies_nth : forall j, (j < 100)%nat -> nth_error energies j = Some (axis_energy j).
Proof. intros j J. unfold energies. rewrite linspace_nth by exact J. rewrite inr99. unfold axis_energy. f_equal. lra. Qed.

Lemma axis_len : length axis = 100%nat.
Proof. unfold axis. rewrite map_length. apply linspace_len. Qed.

Lemma energies_len : length energies = 100%nat.
Proof. apply linspace_len. Qed.

Definition gd : list R := concat (map (fun _ : R => axis) energies).
Definition gt : list R := concat (map (fun y : R => map (fun _ => y) axis) energies).

Lemma gd_nth : forall i j, (i < 100)%nat -> (j < 100)%nat -> nth_error gd (100 * j + i) = Some (axis_density i).
Proof.
  intros i j I J. unfold gd. rewrite (concat_nth _ _ _ 100 energies i j (axis_energy j)); [now apply axis_nth|intros; apply axis_len|now apply energies_nth|exact I].
Qed.

Lemma gt_nth : forall i j, (i < 100)%nat -> (j < 100)%nat -> nth_error gt (100 * j + i) = Some (axis_energy j).
Proof.
  intros i j I J. unfold gt. rewrite (concat_nth _ _ _ 100 energies i j (axis_energy j));
    [rewrite nth_error_map, axis_nth by exact I; reflexivity|intros; rewrite map_length; apply axis_len|now apply energies_nth|exact I].
Qed.

Lemma gd_len : length gd = (100 * 100)%nat.
Proof. unfold gd. rewrite (concat_len _ _ _ 100) by (intros _; apply axis_len). rewrite energies_len. reflexivity. Qed.
Lemma gt_len : length gt = (100 * 100)%nat.
Proof. unfold gt. rewrite (concat_len _ _ _ 100) by (intros b; rewrite map_length; apply axis_len). rewrite energies_len. reflexivity. Qed.

Lemma split_index : forall k, (k < 100 * 100)%nat -> exists i j, k = (100 * j + i)%nat /\ (i < 100)%nat /\ (j < 100)%nat.
Proof.
  intros k K. exists (k mod 100)%nat, (k / 100)%nat. split; [apply Nat.div_mod; lia|]. split; [apply Nat.mod_upper_bound; lia|].
  apply Nat.div_lt_upper_bound; lia.
Qed.

Lemma axis_density_range : forall i, (i < 100)%nat -> 1e-6 <= axis_density i <= 1e-2.
Proof.
  intros i I. unfold axis_density.
  assert (B : 0 <= INR i <= 99). { split; [apply pos_INR|]. replace 99 with (INR 99) by (rewrite INR_IZR_INZ; reflexivity). apply le_INR. lia. }
  assert (E1 : 1e-6 = Rpower 10 (-6)).
  { replace (-6) with (- (6)) by lra. rewrite Rpower_Ropp. replace 6 with (INR 6) by (rewrite INR_IZR_INZ; reflexivity). rewrite Rpower_pow by lra. lra. }
  assert (E2 : 1e-2 = Rpower 10 (-2)).
  { replace (-2) with (- (2)) by lra. rewrite Rpower_Ropp. replace 2 with (INR 2) by (rewrite INR_IZR_INZ; reflexivity). rewrite Rpower_pow by lra. lra. }
  rewrite E1, E2. split; apply Rle_Rpower; lra.
Qed.

Lemma axis_energy_range : forall j, (j < 100)%nat -> 100 <= axis_energy j <= 700.
Proof.
  intros j J. unfold axis_energy.
  assert (B : 0 <= INR j <= 99). { split; [apply pos_INR|]. replace 99 with (INR 99) by (rewrite INR_IZR_INZ; reflexivity). apply le_INR. lia. }
  lra.
Qed.

Lemma gd_pos : List.Forall (fun d => 0 < d) gd.
Proof.
  apply Forall_forall. intros x X. apply In_nth_error in X as (k & K).
  assert (KL : (k < 100 * 100)%nat) by (rewrite <- gd_len; eapply nth_some_lt; eauto). destruct (split_index k KL) as (i & j & -> & I & J).
  rewrite gd_nth in K by assumption. injection K as <-. pose proof (axis_density_range i I). lra.
Qed.
Lemma gt_pos : List.Forall (fun d => 0 < d) gt.
Proof.
  apply Forall_forall. intros x X. apply In_nth_error in X as (k & K).
  assert (KL : (k < 100 * 100)%nat) by (rewrite <- gt_len; eapply nth_some_lt; eauto). destruct (split_index k KL) as (i & j & -> & I & J).
  rewrite gt_nth in K by assumption. injection K as <-. pose proof (axis_energy_range j J). lra.
Qed.

(** The median. *)
Lemma filter_concat : forall (A B : Type) (p : A -> bool) (xs : list A) (l : list B),
  length (filter p (concat (map (fun _ => xs) l))) = (length l * length (filter p xs))%nat.
Proof. intros A B p xs l. induction l as [|b l IH]; [reflexivity|]. cbn [map concat length]. rewrite filter_app, app_length, IH. lia. Qed.

Lemma axis_is : axis = map axis_density (seq 0 100).
Proof.
  unfold axis, GridModel.linspace. rewrite map_map. apply map_ext. intros i. rewrite inr99. unfold axis_density. f_equal. lra.
Qed.

Lemma axis_mono : forall i j, (i < j)%nat -> axis_density i < axis_density j.
Proof. intros i j IJ. unfold axis_density. apply Rpower_lt; [lra|]. apply lt_INR in IJ. lra. Qed.

Lemma axis_sorted : StronglySorted Rle axis.
Proof.
  rewrite axis_is. assert (H : forall n k, StronglySorted Rle (map axis_density (seq k n))); [|apply H].
  induction n as [|n IH]; intros k; cbn [seq map]; constructor; [apply IH|].
  apply Forall_forall. intros x X. apply in_map_iff in X as (j & <- & J). apply in_seq in J. left. apply axis_mono. lia.
Qed.

Lemma axis_nth' : forall i, (i < 100)%nat -> nth i axis 0 = axis_density i.
Proof. intros i I. apply nth_error_nth. now apply axis_nth. Qed.

Lemma halves_rows : forall (xs l : list R) x, StronglySorted Rle xs -> length xs = 100%nat -> length l = 100%nat ->
  (TempdensSpec.halves (concat (map (fun _ => xs) l)) x <-> nth 49 xs 0 <= x <= nth 50 xs 0).
Proof.
  intros xs l x SO LX LL. unfold TempdensSpec.halves, TempdensSpec.count.
  rewrite (concat_len R R (fun _ => xs) 100 l (fun _ => LX)), LL.
  rewrite (filter_concat R R (fun y => if Rle_dec y x then true else false)), (filter_concat R R (fun y => if Rle_dec x y then true else false)), LL.
  pose proof (TempdensProofs2.cnt_le x xs SO 49 ltac:(rewrite LX; lia)) as LE.
  pose proof (TempdensProofs2.cnt_ge x xs SO 50 ltac:(rewrite LX; lia)) as GE.
  rewrite LX in GE. unfold TempdensSpec.count, TempdensProofs2.le_x, TempdensProofs2.ge_x in LE, GE.
  rewrite <- LE, <- GE. lia.
Qed.

Lemma halves_gd : forall x, TempdensSpec.halves gd x <-> axis_density 49 <= x <= axis_density 50.
Proof.
  intros x. unfold gd. rewrite (halves_rows axis energies x axis_sorted axis_len energies_len).
  rewrite !axis_nth' by lia. reflexivity.
Qed.

Lemma middle_gd : middle gd = middle_density.
Proof.
  assert (NE : gd <> []) by (intros E; pose proof gd_len as GL; rewrite E in GL; discriminate).
  apply (TempdensProofs2.is_median_unique gd); [now apply middle_is|].
  exists (axis_density 49), (axis_density 50). split; [exact halves_gd|]. split; [left; apply axis_mono; lia|]. reflexivity.
Qed.

Lemma combine_nth_err : forall (A B : Type) (l : list A) (m : list B) i a b, nth_error l i = Some a -> nth_error m i = Some b ->
  nth_error (combine l m) i = Some (a, b).
Proof.
  intros A B. induction l as [|x l IH]; intros [|y m] [|i] a b NA NB; cbn in *; try discriminate; [congruence|]. now apply IH.
Qed.

Lemma C121_axes_aux : forall zfunc n mi pts, shipped (recomb n) -> 0 < photo_factor n -> selfshield n = false ->
  (forall d u z, zfunc d u = Value z -> length d = length u -> List.Forall (fun x => 0 < x) d -> List.Forall (fun x => 0 < x) u -> length z = length d) ->
  make_cont_plot zfunc n mi = Value pts ->
  length pts = (100 * 100)%nat /\
  exists gridd gridt z, zfunc gridd gridt = Value z /\ length gridd = length gridt /\
    List.Forall (fun x => 0 < x) gridd /\ List.Forall (fun x => 0 < x) gridt /\ TempdensSpec.is_median gridd middle_density /\
    forall i j, (i < 100)%nat -> (j < 100)%nat ->
    nth_error gridd (100 * j + i) = Some (axis_density i) /\ nth_error gridt (100 * j + i) = Some (axis_energy j) /\
    exists m t v, nth_error z (100 * j + i) = Some v /\ nth_error pts (100 * j + i) = Some (axis_density i, t / 1e4, v) /\
      settled n (converge n) middle_density (axis_energy j) m t.
Proof.
  intros zfunc n mi pts SH PF SS LZ E. unfold make_cont_plot in E. cbv zeta in E. change (map (Rpower 10) (GridModel.linspace (-6) (-2) 100)) with axis in E.
  change (GridModel.linspace 100 700 100) with energies in E. unfold meshgrid in E. 
  change (concat (map (fun _ : R => axis) energies)) with gd in E. change (concat (map (fun y : R => map (fun _ => y) axis) energies)) with gt in E.
  pose proof gd_len as gd_len. pose proof gt_len as gt_len. pose proof gd_pos as gd_pos. pose proof gt_pos as gt_pos.
  pose proof gd_nth as gd_nth. pose proof gt_nth as gt_nth. pose proof middle_gd as middle_gd.
  set (g1 := gd) in *. set (g2 := gt) in *. clearbody g1 g2. revert E gd_len gt_len gd_pos gt_pos gd_nth gt_nth middle_gd.
  intros E gd_len gt_len gd_pos gt_pos gd_nth gt_nth middle_gd.
  unfold obind in E. destruct (shown_temp n mi g1 g2) as [ts| | |] eqn:T; try discriminate.
  destruct (zfunc g1 g2) as [z| | |] eqn:Z; try discriminate. injection E as <-.
  assert (LEN : length g1 = length g2) by (rewrite gd_len, gt_len; reflexivity).
  pose proof (LZ g1 g2 z Z LEN gd_pos gt_pos) as LZ'. rewrite gd_len in LZ'.
  destruct (shown_nth n mi SH PF SS g1 g2 LEN gd_pos gt_pos ts T) as [LT NT]. rewrite gt_len in LT.
  split. { rewrite !combine_length, map_length, gd_len, LT, LZ'. rewrite !Nat.min_id. reflexivity. }
  exists g1, g2, z. split; [exact Z|]. split; [exact LEN|]. split; [exact gd_pos|]. split; [exact gt_pos|].
  split. { rewrite <- middle_gd. apply middle_is. intros G. rewrite G in gd_len. cbn [length] in gd_len. lia. }
  intros i j I J. split; [now apply gd_nth|]. split; [now apply gt_nth|].
  destruct (NT (100 * j + i)%nat (axis_energy j) (gt_nth i j I J)) as (t & m & Nt & _ & ST). rewrite middle_gd in ST.
  destruct (GridProofs3.nth_some_len _ z (100 * j + i)) as (v & Nv); [rewrite LZ'; lia|].
  exists m, t, v. split; [exact Nv|]. split; [|exact ST]. apply combine_nth_err; [|exact Nv]. apply combine_nth_err; [now apply gd_nth|].
  rewrite nth_error_map, Nt. reflexivity.
Qed.

(** The five plots. *)
Section plots.
Variables (a b c o : R) (mi : nat).
Let n := c92_network a b c o true.
Let SH : shipped (recomb n) := or_introl eq_refl.
Let PF : 0 < photo_factor n.
Proof. cbn. lra. Qed.
Let SS : selfshield n = false := eq_refl.

Lemma plot_points : forall zfunc pts (P : list R -> list R -> list R -> Prop),
  (forall d u z, zfunc d u = Value z -> length d = length u -> List.Forall (fun x => 0 < x) d -> List.Forall (fun x => 0 < x) u ->
     length z = length d /\ P d u z) ->
  make_cont_plot zfunc n mi = Value pts ->
  length pts = (100 * 100)%nat /\
  exists d u z, P d u z /\ forall i j, (i < 100)%nat -> (j < 100)%nat ->
    nth_error d (100 * j + i) = Some (axis_density i) /\ nth_error u (100 * j + i) = Some (axis_energy j) /\
    exists m t v, nth_error z (100 * j + i) = Some v /\ nth_error pts (100 * j + i) = Some (axis_density i, t / 1e4, v) /\
      settled n 1e-7 middle_density (axis_energy j) m t /\ TempdensSpec.is_median d middle_density.
Proof.
  intros zfunc pts P ALL E.
  destruct (C121_axes_aux zfunc n mi pts SH PF SS) as [LEN (gridd & gridt & z & Z & L & D & U & MED & Q)]; auto.
  { intros d u z Z L D U. destruct (ALL d u z Z L D U). assumption. }
  split; [exact LEN|]. exists gridd, gridt, z. split; [now apply (ALL gridd gridt z)|]. intros i j I J.
  destruct (Q i j I J) as (N1 & N2 & m & t & v & N3 & N4 & ST). split; [exact N1|]. split; [exact N2|]. exists m, t, v. auto.
Qed.

Lemma C121_neplot_aux : forall pts, neplot a b c o mi = Value pts -> length pts = (100 * 100)%nat /\
  forall i j, (i < 100)%nat -> (j < 100)%nat -> exists v t ms m s, nth_error pts (100 * j + i) = Some (axis_density i, s / 1e4, v) /\
    settled n 1e-7 middle_density (axis_energy j) ms s /\ settled n 1e-7 (axis_density i) (axis_energy j) m t /\
    0 <= v <= 1 /\ v * ((1 + 2 * (0.24 / (4 * 0.76))) * (0.76 * axis_density i)) = m.
Proof.
  intros pts E. unfold neplot in E.
  destruct (plot_points _ pts (fun d u z => forall k x y r, nth_error d k = Some x -> nth_error u k = Some y -> nth_error z k = Some r ->
    exists m t, settled n 1e-7 x y m t /\ 0 <= r <= 1 /\ r * ((1 + 2 * (0.24 / (4 * 0.76))) * (0.76 * x)) = m)
    (fun d u z Z L D U => C121_electrons_aux n mi SH PF SS d u L D U z Z) E) as (LEN & d & u & z & P & Q).
  split; [exact LEN|]. intros i j I J. destruct (Q i j I J) as (N1 & N2 & ms & s & v & N3 & N4 & ST & _).
  destruct (P _ _ _ _ N1 N2 N3) as (m & t & ST2 & B & EQ). exists v, t, ms, m, s. repeat (split; [assumption|]). exact EQ.
Qed.

Lemma C122_heplot_aux : forall pts, hefracplot a b c o mi = Value pts -> length pts = (100 * 100)%nat /\
  forall i j, (i < 100)%nat -> (j < 100)%nat -> exists v t ms m s, nth_error pts (100 * j + i) = Some (axis_density i, s / 1e4, v) /\
    settled n 1e-7 middle_density (axis_energy j) ms s /\ settled n 1e-7 (axis_density i) (axis_energy j) m t /\
    (1e-40 < m -> exists s', (exists ms', settled n 1e-7 middle_density (axis_energy j) ms' s') /\
       forall he0 he1 he2, helium_at n m s' he0 he1 he2 -> 0 < v * he2 < he1).
Proof.
  intros pts E. unfold hefracplot in E.
  destruct (plot_points _ pts (fun d u z => forall k x y r, nth_error d k = Some x -> nth_error u k = Some y -> nth_error z k = Some r ->
     exists med m t m' s, TempdensSpec.is_median d med /\ settled n 1e-7 x y m t /\ settled n 1e-7 med y m' s /\
    (1e-40 < m -> forall he0 he1 he2, helium_at n m s he0 he1 he2 ->
       (r * he2 = he1 <-> 0.76 * x = 1) /\ (0.76 * x < 1 -> 0 < r * he2 < he1) /\
       (collisional n = false -> r * he2 = 0.76 * x * he1)))
    (fun d u z Z L D U => C122_helium_aux n mi SH PF SS d u L D U z Z) E) as (LEN & d & u & z & P & Q).
  split; [exact LEN|]. intros i j I J. destruct (Q i j I J) as (N1 & N2 & ms & s & v & N3 & N4 & ST & MED).
  destruct (P _ _ _ _ N1 N2 N3) as (med & m & t & m' & s' & MED' & ST2 & ST3 & H).
  pose proof (TempdensProofs2.is_median_unique _ _ _ MED MED') as EM. rewrite <- EM in ST3.
  exists v, t, ms, m, s. repeat (split; [assumption|]). intros X. exists s'. split; [exists m'; exact ST3|].
  intros he0 he1 he2 HB. destruct (H X he0 he1 he2 HB) as (_ & H2 & _). apply H2. pose proof (axis_density_range i I). lra.
Qed.
End plots.
