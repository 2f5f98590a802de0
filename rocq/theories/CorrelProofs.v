(** Proofs about two-dimensional histograms (C116). *)
From Coq Require Import ZArith List Bool Reals Lra Lia Arith.
From Verif Require Import AbsorptionSpec AbsorptionProofs FluxModel FluxSpec FluxProofs FluxProofs2 FluxProofs3 CddfModel CddfProofs.
From Verif Require MetalModel MetalProofs2 HaloModel.
From Verif Require Import HostsSpec HostsProofs HostsProofs2 CorrelModel CorrelSpec.
Import ListNotations.
Local Open Scope R_scope.

Lemma length_filter_lt : forall k N, length (filter (fun j => Nat.ltb j k) (seq 0 N)) = Nat.min k N.
Proof.
  intros k. induction N as [|N IH]; [cbn; lia|]. rewrite seq_S, filter_app, app_length, IH. cbn [filter plus].
  destruct (Nat.ltb_spec N k); cbn [length]; lia.
Qed.

Lemma filter_map_length : forall {A B} (f : A -> B) g l, length (filter g (map f l)) = length (filter (fun x => g (f x)) l).
Proof. intros A B f g. induction l as [|x l IH]; [reflexivity|]. cbn [map filter]. destruct (g (f x)); cbn [length]; rewrite IH; reflexivity. Qed.

Lemma filter_ext_length : forall {A} (f g : A -> bool) l, (forall x, In x l -> f x = g x) -> length (filter f l) = length (filter g l).
Proof.
  intros A f g. induction l as [|x l IH]; intros E; [reflexivity|]. cbn [filter]. rewrite (E x (or_introl eq_refl)).
  assert (IH' := IH (fun y Y => E y (or_intror Y))). destruct (g x); cbn [length]; rewrite IH'; reflexivity.
Qed.

Section Bins.
Variables (e : nat -> R) (n : nat).
Hypotheses (INC : forall i, (i < n)%nat -> e i < e (S i)) (N : (0 < n)%nat).

Lemma bin_inside : forall i x, (i < n)%nat -> inside e n i x -> bin_of (map e (seq 0 (S n))) x = i.
Proof.
  intros i x I [L U]. unfold bin_of. rewrite filter_map_length.
  assert (LA : last (map e (seq 0 (S n))) 0 = e n).
  { rewrite seq_S, map_app. cbn [map plus]. apply last_last. }
  rewrite LA. destruct (Req_EM_T x (e n)) as [E|E].
  - assert (S i = n).
    { destruct U as [U|[U _]]; [|exact U]. exfalso. assert (e (S i) <= e n) by (apply (e_mono e n INC); lia). lra. }
    rewrite (filter_ext_length _ (fun j => Nat.ltb j (S n))).
    + rewrite length_filter_lt. lia.
    + intros j J. apply in_seq in J. assert (e j <= e n) by (apply (e_mono e n INC); lia).
      destruct (Rle_dec (e j) x); [|lra]. symmetry. apply Nat.ltb_lt. lia.
  - assert (U' : x < e (S i)) by (destruct U as [U|[_ U]]; [exact U|contradiction]).
    rewrite (filter_ext_length _ (fun j => Nat.ltb j (S i))).
    + rewrite length_filter_lt. lia.
    + intros j J. apply in_seq in J. destruct (Nat.ltb_spec j (S i)) as [C|C].
      * assert (e j <= e i) by (apply (e_mono e n INC); lia). destruct (Rle_dec (e j) x); [reflexivity|lra].
      * assert (e (S i) <= e j) by (apply (e_mono e n INC); lia). destruct (Rle_dec (e j) x); [lra|reflexivity].
Qed.

Lemma bin_iff : forall i x, (i < n)%nat -> e 0%nat <= x <= e n -> (bin_of (map e (seq 0 (S n))) x = i <-> inside e n i x).
Proof.
  intros i x I X. split; [|apply bin_inside, I]. intros B. destruct (inside_some e n INC x N X) as [k [K S]].
  rewrite (bin_inside k x K S) in B. subst. exact S.
Qed.
End Bins.

Lemma number_length : forall {A} (P : A -> Prop) (f : A -> bool) l, (forall x, In x l -> (f x = true <-> P x)) -> number P l (length (filter f l)).
Proof.
  intros A P f. induction l as [|x l IH]; intros E; [constructor|]. cbn [filter]. destruct (f x) eqn:F.
  - cbn [length]. constructor 2; [apply E; [left; reflexivity|exact F]|]. apply IH. intros; apply E; right; assumption.
  - constructor 3; [|apply IH; intros; apply E; right; assumption]. intros C. apply (E x (or_introl eq_refl)) in C. congruence.
Qed.

(** ** The range of an axis *)

Lemma covers_ends : forall l lo hi, covers l lo hi -> ends l = (lo, hi).
Proof.
  intros l lo hi H. destruct H as [|l x NE E|l lo hi I J LT B].
  - reflexivity.
  - unfold ends. assert (I : In x l) by (destruct l as [|y t]; [congruence|left; exact (E y (or_introl eq_refl))]).
    rewrite (min_eq l x I), (max_eq l x I) by (intros y Y; rewrite (E y Y); lra). destruct (Req_EM_T x x); [reflexivity|contradiction].
  - unfold ends. rewrite (min_eq l lo I), (max_eq l hi J) by (intros y Y; apply B, Y). destruct (Req_EM_T lo hi); [lra|reflexivity].
Qed.

Lemma covers_ex : forall l, exists lo hi, covers l lo hi.
Proof.
  intros [|x t]; [exists 0, 1; constructor|]. destruct (MetalProofs2.fold_min t x) as [M1 M2]. destruct (MetalProofs2.fold_max t x) as [N1 N2].
  set (lo := fold_left Rmin t x) in *. set (hi := fold_left Rmax t x) in *.
  assert (LE : lo <= hi) by (apply M2, N1). destruct LE as [LT|E].
  - exists lo, hi. apply covers_range; try assumption. intros y Y. split; auto.
  - exists (lo - / 2), (lo + / 2). apply covers_one; [discriminate|]. intros y Y. apply Rle_antisym; [rewrite E; apply N2, Y|apply M2, Y].
Qed.

Lemma covers_bounds : forall l lo hi, covers l lo hi -> lo < hi /\ forall y, In y l -> lo <= y <= hi.
Proof.
  intros l lo hi H. destruct H as [|l x NE E|l lo hi I J LT B].
  - split; [lra|intros y []].
  - split; [lra|]. intros y Y. rewrite (E y Y). lra.
  - split; assumption.
Qed.

Lemma edges_eq : forall n lo hi, edges n (lo, hi) = map (spaced lo ((hi - lo) / INR n)) (seq 0 (S n)).
Proof. reflexivity. Qed.

Lemma step_pos : forall n lo hi, (0 < n)%nat -> lo < hi -> 0 < (hi - lo) / INR n.
Proof. intros n lo hi N L. apply Rmult_lt_0_compat; [lra|]. apply Rinv_0_lt_compat, lt_0_INR, N. Qed.

Lemma spaced_inc : forall a d, 0 < d -> forall n i, (i < n)%nat -> spaced a d i < spaced a d (S i).
Proof. intros a d D n i _. unfold spaced. rewrite S_INR. lra. Qed.

Lemma spaced_ends : forall n lo hi, (0 < n)%nat -> spaced lo ((hi - lo) / INR n) 0 = lo /\ spaced lo ((hi - lo) / INR n) n = hi.
Proof.
  intros n lo hi N. unfold spaced. split; [cbn [INR]; ring|]. field. apply not_0_INR. lia.
Qed.

Lemma in_combine_map : forall {A} (f g : A -> R) l x y, In (x, y) (combine (map f l) (map g l)) -> In x (map f l) /\ In y (map g l).
Proof. intros A f g l x y H. split; [eapply in_combine_l; exact H|eapply in_combine_r; exact H]. Qed.

Lemma combine_split : forall {A} (f g : A -> R) l, combine (map f l) (map g l) = map (fun p => (f p, g p)) l.
Proof. intros A f g. induction l as [|x l IH]; [reflexivity|]. cbn. rewrite IH. reflexivity. Qed.

Definition ok (log : bool) (l : list R) : Prop := log = true -> forall x, In x l -> 0 < x.

Lemma no_bad : forall log l, ok log l -> log && existsb not_positive l = false.
Proof.
  intros log l G. destruct log; [|reflexivity]. cbn [andb]. destruct (existsb not_positive l) eqn:E; [|reflexivity]. exfalso. apply existsb_exists in E.
  destruct E as [x [I X]]. specialize (G eq_refl x I). unfold not_positive in X. destruct (Rle_dec x 0); [lra|discriminate].
Qed.

Lemma scaled_map : forall log (l : list R), (if log : bool then map log10 l else l) = map (scale log) l.
Proof. intros [] l; [reflexivity|]. unfold scale. rewrite map_id. reflexivity. Qed.
Lemma unscaled_map : forall log (l : list R), (if log : bool then map (Rpower 10) l else l) = map (unscale log) l.
Proof. intros [] l; [reflexivity|]. unfold unscale. rewrite map_id. reflexivity. Qed.

Lemma nth_map_seq2 : forall {A} (f : nat -> A) n i d, (i < n)%nat -> nth i (map f (seq 0 n)) d = f i.
Proof.
  intros A f n i d I. rewrite (nth_indep _ d (f 0%nat)) by (rewrite map_length, seq_length; exact I).
  rewrite (map_nth f), seq_nth by exact I. reflexivity.
Qed.

Section Contour.
Variables (numlos n : nat) (ylog xlog : bool) (sample : R) (pts : list (R * R)).
Hypotheses (N : (0 < n)%nat) (GX : xlog = true -> forall x y, In (x, y) pts -> 0 < x) (GY : ylog = true -> forall x y, In (x, y) pts -> 0 < y).

Lemma C116_counts_aux : exists xlo xhi ylo yhi X Y Zs,
  covers (map (fun p => scale xlog (fst p)) pts) xlo xhi /\ covers (map (fun p => scale ylog (snd p)) pts) ylo yhi /\
  let ex := spaced xlo ((xhi - xlo) / INR n) in
  let ey := spaced ylo ((yhi - ylo) / INR n) in
  plot_2d_contour numlos n ylog xlog sample (map fst pts) (map snd pts) =
    Some (X, Y, Zs, [INR numlos / sample * 0.15; INR numlos / sample * 1; INR numlos / sample * 10]) /\
  length X = n /\ length Y = n /\ length Zs = n /\
  (forall i, (i < n)%nat -> nth i X 0 = unscale xlog ((ex i + ex (S i)) / 2) /\ nth i Y 0 = unscale ylog ((ey i + ey (S i)) / 2)) /\
  (forall i j, (i < n)%nat -> (j < n)%nat -> length (nth j Zs []) = n /\
     exists m, number (fun p => within ex n i (scale xlog (fst p)) /\ within ey n j (scale ylog (snd p))) pts m /\ nth i (nth j Zs []) 0 = INR m) /\
  (forall p, In p pts -> exists i j, (i < n)%nat /\ (j < n)%nat /\ within ex n i (scale xlog (fst p)) /\ within ey n j (scale ylog (snd p)) /\
     forall i' j', (i' < n)%nat -> (j' < n)%nat -> within ex n i' (scale xlog (fst p)) -> within ey n j' (scale ylog (snd p)) -> i' = i /\ j' = j).
Proof.
  destruct (covers_ex (map (fun p => scale xlog (fst p)) pts)) as [xlo [xhi CX]].
  destruct (covers_ex (map (fun p => scale ylog (snd p)) pts)) as [ylo [yhi CY]].
  destruct (covers_bounds _ _ _ CX) as [LX BX]. destruct (covers_bounds _ _ _ CY) as [LY BY].
  assert (OX : ok xlog (map fst pts)).
  { intros T x I. apply in_map_iff in I. destruct I as [[a b] [<- I]]. exact (GX T a b I). }
  assert (OY : ok ylog (map snd pts)).
  { intros T x I. apply in_map_iff in I. destruct I as [[a b] [<- I]]. exact (GY T a b I). }
  set (ex := spaced xlo ((xhi - xlo) / INR n)). set (ey := spaced ylo ((yhi - ylo) / INR n)).
  assert (IX : forall i, (i < n)%nat -> ex i < ex (S i)) by (apply spaced_inc, step_pos; assumption).
  assert (IY : forall i, (i < n)%nat -> ey i < ey (S i)) by (apply spaced_inc, step_pos; assumption).
  destruct (spaced_ends n xlo xhi N) as [X0 X1]. destruct (spaced_ends n ylo yhi N) as [Y0 Y1]. fold ex in X0, X1. fold ey in Y0, Y1.
  assert (RX : forall p, In p pts -> ex 0%nat <= scale xlog (fst p) <= ex n).
  { intros p P. rewrite X0, X1. apply BX, in_map_iff. exists p. auto. }
  assert (RY : forall p, In p pts -> ey 0%nat <= scale ylog (snd p) <= ey n).
  { intros p P. rewrite Y0, Y1. apply BY, in_map_iff. exists p. auto. }
  exists xlo, xhi, ylo, yhi.
  exists (map (unscale xlog) (map (fun i => (ex i + ex (S i)) / 2) (seq 0 n))), (map (unscale ylog) (map (fun i => (ey i + ey (S i)) / 2) (seq 0 n))).
  set (cell := fun i j => INR (length (filter (fun p => Nat.eqb (bin_of (map ex (seq 0 (S n))) (scale xlog (fst p))) i &&
      Nat.eqb (bin_of (map ey (seq 0 (S n))) (scale ylog (snd p))) j) pts))).
  exists (map (fun j => map (fun i => cell i j) (seq 0 n)) (seq 0 n)).
  split; [exact CX|]. split; [exact CY|]. cbv zeta. split.
  - unfold plot_2d_contour. rewrite (no_bad _ _ OX), (no_bad _ _ OY). cbn [orb]. rewrite !scaled_map, !map_map.
    unfold histogram2d. rewrite (covers_ends _ _ _ CX), (covers_ends _ _ _ CY), !edges_eq. fold ex ey. rewrite !centers_map, !unscaled_map.
    rewrite combine_split. apply f_equal. apply f_equal2; [apply f_equal2; [rewrite !map_map; reflexivity|]|reflexivity]. apply map_ext_in. intros j J. apply in_seq in J. rewrite map_map. apply map_ext. intros i.
    rewrite (nth_map_seq (fun j => INR (length (filter (fun p => Nat.eqb (bin_of (map ex (seq 0 (S n))) (fst p)) i && Nat.eqb (bin_of (map ey (seq 0 (S n))) (snd p)) j)
      (map (fun p => (scale xlog (fst p), scale ylog (snd p))) pts))))) by lia.
    rewrite filter_map_length. reflexivity.
  - rewrite !map_length, !seq_length. split; [reflexivity|]. split; [reflexivity|]. split; [reflexivity|]. split; [|split].
    + intros i I. rewrite !map_map. split.
      * rewrite (nth_map_seq (fun i => unscale xlog ((ex i + ex (S i)) / 2))) by exact I. reflexivity.
      * rewrite (nth_map_seq (fun i => unscale ylog ((ey i + ey (S i)) / 2))) by exact I. reflexivity.
    + intros i j I J. rewrite (nth_map_seq2 (fun j => map (fun i => cell i j) (seq 0 n))) by exact J. rewrite map_length, seq_length. split; [reflexivity|].
      rewrite (nth_map_seq (fun i => cell i j)) by exact I. unfold cell.
      eexists. split; [|reflexivity]. apply number_length. intros p P. rewrite andb_true_iff, !Nat.eqb_eq.
      rewrite (bin_iff ex n IX N i _ I (RX p P)), (bin_iff ey n IY N j _ J (RY p P)). reflexivity.
    + intros p P. destruct (inside_some ex n IX _ N (RX p P)) as [i [I SI]]. destruct (inside_some ey n IY _ N (RY p P)) as [j [J SJ]].
      exists i, j. split; [exact I|]. split; [exact J|]. split; [exact SI|]. split; [exact SJ|]. intros i' j' I' J' A B. split.
      * exact (inside_unique ex n IX _ _ _ I' I A SI).
      * exact (inside_unique ey n IY _ _ _ J' J B SJ).
Qed.
End Contour.

(** The array adds up to the number of points. *)
Lemma INR_plus_total : forall l : list nat, total (map INR l) = INR (fold_right plus 0%nat l).
Proof. unfold total. induction l as [|x l IH]; [reflexivity|]. cbn [map fold_right]. rewrite IH, plus_INR. reflexivity. Qed.

Lemma number_all : forall {A} (P : A -> Prop) l, (forall x, In x l -> P x) -> number P l (length l).
Proof. intros A P. induction l as [|x l IH]; intros H; [constructor|]. cbn [length]. constructor 2; [apply H; left; reflexivity|]. apply IH. intros; apply H; right; assumption. Qed.

Lemma pick2 : forall {A} (Q : nat -> A -> Prop) k, (0 < k)%nat -> (forall i, (i < k)%nat -> exists m, Q i m) -> exists c : nat -> A, forall i, (i < k)%nat -> Q i (c i).
Proof.
  intros A Q. induction k as [|k IH]; intros K H; [lia|]. destruct (H k ltac:(lia)) as [m M]. destruct k as [|k].
  - exists (fun _ => m). intros i I. replace i with 0%nat by lia. exact M.
  - destruct IH as [c C]; [lia|intros; apply H; lia|]. exists (fun i => if Nat.eqb i (S k) then m else c i).
    intros i I. destruct (Nat.eqb_spec i (S k)) as [->|NE]; [exact M|]. apply C. lia.
Qed.

Lemma C116_total_aux : forall numlos n ylog xlog sample (pts : list (R * R)) X Y Zs levels, (0 < n)%nat ->
  (xlog = true -> forall x y, In (x, y) pts -> 0 < x) -> (ylog = true -> forall x y, In (x, y) pts -> 0 < y) ->
  plot_2d_contour numlos n ylog xlog sample (map fst pts) (map snd pts) = Some (X, Y, Zs, levels) ->
  total (map total Zs) = INR (length pts).
Proof.
  intros numlos n ylog xlog sample pts X Y Zs levels N GX GY E.
  destruct (C116_counts_aux numlos n ylog xlog sample pts N GX GY) as [xlo [xhi [ylo [yhi [X' [Y' [Z' [CX [CY [E' [_ [_ [LZ [_ [C A]]]]]]]]]]]]]]].
  rewrite E in E'. injection E' as <- <- <- _. set (ex := spaced xlo ((xhi - xlo) / INR n)) in *. set (ey := spaced ylo ((yhi - ylo) / INR n)) in *.
  set (P := fun i j (p : R * R) => within ex n i (scale xlog (fst p)) /\ within ey n j (scale ylog (snd p))).
  destruct (pick2 (fun j (c : nat -> nat) => forall i, (i < n)%nat -> length (nth j Zs []) = n /\ number (P i j) pts (c i) /\ nth i (nth j Zs []) 0 = INR (c i)) n N) as [c CC].
  { intros j J. destruct (pick2 (fun i m => length (nth j Zs []) = n /\ number (P i j) pts m /\ nth i (nth j Zs []) 0 = INR m) n N) as [c CC].
    - intros i I. destruct (C i j I J) as [L [m [M V]]]. exists m. auto.
    - exists c. exact CC. }
  assert (ROW : forall j, (j < n)%nat -> total (nth j Zs []) = INR (fold_right plus 0%nat (map (c j) (seq 0 n)))).
  { intros j J. destruct (CC j J 0%nat N) as [L _]. rewrite <- INR_plus_total, map_map. f_equal.
    rewrite <- (map_id (nth j Zs [])). rewrite (map_nth_seq (fun x => x) 0 (nth j Zs [])), L. apply map_ext_in. intros i I. apply in_seq in I.
    destruct (CC j J i ltac:(lia)) as [_ [_ V]]. exact V. }
  rewrite (map_nth_seq total [] Zs), LZ.
  rewrite (map_ext_in _ (fun j => INR (fold_right plus 0%nat (map (c j) (seq 0 n))))) by (intros j J; apply in_seq in J; apply ROW; lia).
  rewrite <- (map_map (fun j => fold_right plus 0%nat (map (c j) (seq 0 n))) INR), INR_plus_total. f_equal.
  assert (U1 : forall j, (j < n)%nat -> number (fun p => exists i, (i < n)%nat /\ P i j p) pts (fold_right plus 0%nat (map (c j) (seq 0 n)))).
  { intros j J. apply number_union.
    - intros i i' p I [Q1 Q2] [R1 R2].
      assert (IP : In p pts \/ ~ In p pts) by (destruct (in_dec (fun a b : R * R => ltac:(decide equality; apply Req_EM_T) : {a = b} + {a <> b}) p pts); auto).
      destruct (covers_bounds _ _ _ CX) as [LX _]. assert (IX : forall i, (i < n)%nat -> ex i < ex (S i)) by (apply spaced_inc, step_pos; assumption).
      assert (i = i') by (apply (inside_unique ex n IX i i' _ ltac:(lia) ltac:(lia) Q1 R1)). lia.
    - intros i I. apply (CC j J i I). }
  assert (U2 : number (fun p => exists j, (j < n)%nat /\ exists i, (i < n)%nat /\ P i j p) pts
      (fold_right plus 0%nat (map (fun j => fold_right plus 0%nat (map (c j) (seq 0 n))) (seq 0 n)))).
  { apply (number_union (fun j p => exists i, (i < n)%nat /\ P i j p)).
    - intros j j' p J [i [I [Q1 Q2]]] [i' [I' [R1 R2]]].
      destruct (covers_bounds _ _ _ CY) as [LY _]. assert (IY : forall i, (i < n)%nat -> ey i < ey (S i)) by (apply spaced_inc, step_pos; assumption).
      assert (j = j') by (apply (inside_unique ey n IY j j' _ ltac:(lia) ltac:(lia) Q2 R2)). lia.
    - exact U1. }
  refine (number_det _ _ _ U2 _ _). apply number_all. intros p IP. destruct (A p IP) as [i [j [I [J [Q1 [Q2 _]]]]]].
  exists j. split; [exact J|]. exists i. split; [exact I|]. split; assumption.
Qed.

Lemma C116_errors_aux : forall numlos n ylog xlog sample (pts : list (R * R)),
  (xlog = true /\ exists x y, In (x, y) pts /\ x <= 0) \/ (ylog = true /\ exists x y, In (x, y) pts /\ y <= 0) ->
  plot_2d_contour numlos n ylog xlog sample (map fst pts) (map snd pts) = None.
Proof.
  intros numlos n ylog xlog sample pts H. unfold plot_2d_contour.
  assert (B : (ylog && existsb not_positive (map snd pts)) || (xlog && existsb not_positive (map fst pts)) = true).
  { apply orb_true_iff. destruct H as [[-> [x [y [I L]]]]|[-> [x [y [I L]]]]]; [right|left]; cbn [andb]; apply existsb_exists.
    - exists x. split; [apply in_map_iff; exists (x, y); auto|]. unfold not_positive. destruct (Rle_dec x 0); [reflexivity|contradiction].
    - exists y. split; [apply in_map_iff; exists (x, y); auto|]. unfold not_positive. destruct (Rle_dec y 0); [reflexivity|contradiction]. }
  rewrite B. reflexivity.
Qed.

(** ** Plots against the mass *)

Definition keep_Z (r : Z * MetalModel.quotient) : list (Z * R) :=
  if HaloModel.plot_keeps (fst r) then
    match snd r with
    | MetalModel.Num q => if Rlt_dec (/ 10 ^ 4) q then [(fst r, q)] else []
    | MetalModel.NotFinite => []
    end else [].

Lemma hosted_kept : forall mass rows pts, hosted_points (fun h => mass h + 0.1) rows pts ->
  map (fun r => (mass (fst r) + 0.1, snd r)) (flat_map keep_Z rows) = pts.
Proof.
  intros mass rows pts H. induction H as [|h q l pts K Q H IH|h q l pts Q H IH|h l pts H IH|h q l pts K H IH]; cbn [flat_map]; rewrite ?map_app, ?IH.
  - reflexivity.
  - unfold keep_Z at 1, HaloModel.plot_keeps. cbn [fst snd]. destruct (Z.ltb_spec 0 h); [|lia]. destruct (Rlt_dec (/ 10 ^ 4) q); [reflexivity|contradiction].
  - unfold keep_Z at 1. cbn [fst snd]. destruct (HaloModel.plot_keeps h); [|reflexivity]. destruct (Rlt_dec (/ 10 ^ 4) q); [lra|reflexivity].
  - unfold keep_Z at 1. cbn [fst snd]. destruct (HaloModel.plot_keeps h); reflexivity.
  - unfold keep_Z at 1, HaloModel.plot_keeps. cbn [fst snd]. destruct (Z.ltb_spec 0 h); [lia|reflexivity].
Qed.

Lemma C116_mass_aux : forall numlos mass rows pts, hosted_points (fun h => mass h + 0.1) rows pts ->
  plot_Z_vs_mass numlos mass rows = plot_2d_contour numlos 10 true true 40 (map fst pts) (map snd pts).
Proof.
  intros numlos mass rows pts H. apply hosted_kept in H. rewrite <- H, !map_map. reflexivity.
Qed.

Lemma C116_velocity_aux : forall numlos vel log rows pts, pts = map (fun r => (vel (fst r) + 0.1, snd r)) (filter (fun r => (0 <? fst r)%Z) rows) ->
  plot_xx_vs_mass numlos vel log rows = plot_2d_contour numlos 10 log true 40 (map fst pts) (map snd pts).
Proof. intros numlos vel log rows pts ->. rewrite !map_map. reflexivity. Qed.

Lemma hosted_ex : forall x rows, exists pts, hosted_points x rows pts.
Proof.
  intros x. induction rows as [|[h q] l [pts IH]]; [exists []; constructor|].
  destruct (Z_lt_le_dec 0 h) as [K|K]; [|exists pts; apply hosted_first; assumption].
  destruct q as [q|]; [|exists pts; apply hosted_nan; assumption].
  destruct (Rlt_le_dec (/ 10 ^ 4) q); [exists ((x h, q) :: pts); apply hosted_point; assumption|exists pts; apply hosted_poor; assumption].
Qed.

Lemma hosted_in : forall x rows pts, hosted_points x rows pts -> forall a b, In (a, b) pts -> / 10 ^ 4 < b /\ exists h, (0 < h)%Z /\ In (h, MetalModel.Num b) rows /\ a = x h.
Proof.
  intros x rows pts H. induction H as [|h q l pts K Q H IH|h q l pts Q H IH|h l pts H IH|h q l pts K H IH]; intros a b I.
  - destruct I.
  - destruct I as [E|I].
    + injection E as <- <-. split; [exact Q|]. exists h. split; [exact K|]. split; [left; reflexivity|reflexivity].
    + destruct (IH a b I) as [B [k [K' [J E]]]]. split; [exact B|]. exists k. split; [exact K'|]. split; [right; exact J|exact E].
  - destruct (IH a b I) as [B [k [K' [J E]]]]. split; [exact B|]. exists k. split; [exact K'|]. split; [right; exact J|exact E].
  - destruct (IH a b I) as [B [k [K' [J E]]]]. split; [exact B|]. exists k. split; [exact K'|]. split; [right; exact J|exact E].
  - destruct (IH a b I) as [B [k [K' [J E]]]]. split; [exact B|]. exists k. split; [exact K'|]. split; [right; exact J|exact E].
Qed.

Lemma C116_complete_aux : forall numlos mass rows pts, (forall h q, In (h, q) rows -> (0 < h)%Z -> 0 <= mass h) ->
  hosted_points (fun h => mass h + 0.1) rows pts ->
  exists X Y Zs levels, plot_Z_vs_mass numlos mass rows = Some (X, Y, Zs, levels) /\ length Zs = 10%nat /\ total (map total Zs) = INR (length pts).
Proof.
  intros numlos mass rows pts M H.
  assert (GX : true = true -> forall x y, In (x, y) pts -> 0 < x).
  { intros _ x y I. destruct (hosted_in _ _ _ H x y I) as [_ [h [K [J ->]]]]. specialize (M h _ J K). lra. }
  assert (GY : true = true -> forall x y, In (x, y) pts -> 0 < y).
  { intros _ x y I. destruct (hosted_in _ _ _ H x y I) as [Q _]. assert (0 < / 10 ^ 4) by (apply Rinv_0_lt_compat, pow_lt; lra). lra. }
  rewrite (C116_mass_aux numlos mass rows pts H).
  destruct (C116_counts_aux numlos 10 true true 40 pts ltac:(lia) GX GY) as [xlo [xhi [ylo [yhi [X [Y [Zs [_ [_ [E [_ [_ [LZ _]]]]]]]]]]]]].
  exists X, Y, Zs. eexists. split; [exact E|]. split; [exact LZ|]. exact (C116_total_aux _ 10 true true 40 pts X Y Zs _ ltac:(lia) GX GY E).
Qed.
