(** Proofs about metallicities (C84). *)
From Coq Require Import Ascii String ZArith List Bool Reals Lra Lia Arith.
From Verif Require Import AbsorptionSpec SightlineModel SetupModel MetalModel MetalSpec.
From Verif Require FilterModel FilterProofs FitModel AbsorptionProofs SetupProofs SetupSpec.
Import ListNotations.
Local Open Scope R_scope.

Lemma argmax_first : forall l i best v b w, FilterModel.argmax_from l i best v = (b, w) ->
  v <= w /\ (forall j, (j < length l)%nat -> nth j l 0 <= w) /\
  ((b = best /\ w = v) \/
   exists j, (j < length l)%nat /\ b = (i + j)%nat /\ nth j l 0 = w /\ v < w /\ forall k, (k < j)%nat -> nth k l 0 < w).
Proof.
  induction l as [|x l IH]; intros i best v b w H; cbn [FilterModel.argmax_from] in H.
  - injection H as <- <-. split; [lra|]. split; [intros j J; cbn in J; lia|]. left. auto.
  - destruct (Rlt_dec v x) as [V|V]; apply IH in H; destruct H as [H1 [H2 H3]].
    + split; [lra|]. split.
      * intros [|j] J; [exact H1|]. apply H2. cbn in J. lia.
      * right. destruct H3 as [[-> ->]|[j [J [-> [N [L F]]]]]].
        -- exists 0%nat. cbn [length nth]. repeat split; try lia; try lra; auto.
        -- exists (S j). cbn [length nth]. repeat split; try lia; try lra; auto. intros [|k] K; [lra|]. apply F. lia.
    + split; [lra|]. split.
      * intros [|j] J; [cbn [nth]; lra|]. apply H2. cbn in J. lia.
      * destruct H3 as [[-> ->]|[j [J [-> [N [L F]]]]]]; [left; auto|].
        right. exists (S j). cbn [length nth]. repeat split; try lia; try lra; auto. intros [|k] K; [lra|]. apply F. lia.
Qed.

Lemma argmax_peak : forall row p, first_peak row p <-> exists w, FilterModel.argmax row = Some (p, w).
Proof.
  assert (FW : forall row b w, FilterModel.argmax row = Some (b, w) -> first_peak row b).
  { intros [|x l] b w H; [discriminate|]. cbn [FilterModel.argmax] in H. injection H as H. apply argmax_first in H.
    destruct H as [H1 [H2 H3]]. unfold first_peak. destruct H3 as [[-> ->]|[j [J [-> [N [L F]]]]]].
    - cbn [length]. split; [lia|]. split; [|intros i I; lia]. intros [|i] I; [cbn; lra|]. cbn [nth]. apply H2. lia.
    - cbn [length]. split; [lia|]. change (nth (1 + j) (x :: l) 0) with (nth j l 0). rewrite N. split.
      + intros [|i] I; cbn [nth]; [lra|]. apply H2. lia.
      + intros [|i] I; cbn [nth]; [lra|]. apply F. lia. }
  intros row p. split.
  - intros P. assert (NE : row <> []) by (intros ->; destruct P as [P _]; cbn in P; lia).
    destruct (FilterProofs.argmax_some row NE) as [b [w E]]. exists w. rewrite E. apply FW in E.
    destruct P as [P1 [P2 P3]], E as [E1 [E2 E3]].
    destruct (lt_eq_lt_dec b p) as [[L|L]|L].
    + specialize (P3 b L). specialize (E2 p P1). lra.
    + congruence.
    + specialize (E3 p L). specialize (P2 b E1). lra.
  - intros [w H]. eapply FW, H.
Qed.

Lemma slice_seq : forall (f : nat -> R) n a b, (a <= b)%nat -> (b <= n)%nat ->
  py_slice a b (map f (seq 0 n)) = map f (seq a (b - a)).
Proof.
  intros f n a b AB BN. unfold py_slice. rewrite skipn_map, firstn_map. f_equal.
  replace n with (a + (b - a) + (n - b))%nat at 1 by lia. rewrite !seq_app. rewrite skipn_app, skipn_app.
  rewrite skipn_all2 by (rewrite seq_length; lia). rewrite !app_length, !seq_length.
  rewrite Nat.sub_diag. replace (a - (a + (b - a)))%nat with 0%nat by lia. cbn [skipn app plus].
  rewrite firstn_app, seq_length, Nat.sub_diag. cbn [firstn]. rewrite app_nil_r.
  rewrite firstn_all2 by (rewrite seq_length; lia). reflexivity.
Qed.

Lemma seq_shift0 : forall a n, seq a n = map (fun k => (a + k)%nat) (seq 0 n).
Proof.
  intros a n. revert a. induction n as [|n IH]; intros a; [reflexivity|]. cbn [seq map]. rewrite Nat.add_0_r. f_equal.
  rewrite (IH (S a)), (IH 1%nat), map_map. apply map_ext. intros. lia.
Qed.

Lemma slice_around : forall l n p w, length l = n -> (w <= n / 2)%nat ->
  rsum (py_slice (n / 2 - w) (n / 2 + w) (FitModel.roll (Z.of_nat (n / 2) - Z.of_nat p) l)) = around l p w.
Proof.
  intros l n p w L W. unfold FitModel.roll. rewrite L.
  assert (B : (n / 2 + w <= n)%nat).
  { assert (H := Nat.div_mod n 2 ltac:(lia)). lia. }
  rewrite (slice_seq (fun i => nth (Z.to_nat ((Z.of_nat i - (Z.of_nat (n / 2) - Z.of_nat p)) mod Z.of_nat n)) l 0)) by lia.
  change rsum with sum. unfold around. f_equal. replace (n / 2 + w - (n / 2 - w))%nat with (2 * w)%nat by lia.
  rewrite seq_shift0, map_map. apply map_ext. intros k. unfold pixel. rewrite L. do 3 f_equal. lia.
Qed.

Lemma trunc_whole : forall width dvbin w, 0 < width -> 0 < dvbin -> whole width dvbin w -> Z.to_nat (trunc (width / dvbin)) = w.
Proof.
  intros width dvbin w WP D [H1 H2]. destruct (SetupProofs.trunc_spec width dvbin D ltac:(lra)) as [F X].
  destruct F as [F1 F2].
  set (k := trunc (width / dvbin)) in *. clearbody k. rewrite S_INR in H2. rewrite INR_IZR_INZ in H1, H2.
  assert (K1 : (k < Z.of_nat w + 1)%Z). { apply lt_IZR. rewrite plus_IZR. apply (Rmult_lt_reg_r dvbin); lra. }
  assert (K2 : (Z.of_nat w < k + 1)%Z). { apply lt_IZR. rewrite plus_IZR. apply (Rmult_lt_reg_r dvbin); lra. }
  lia.
Qed.

Lemma all_rows_spec : forall f MM HH, length MM = length HH ->
  (forall i mm hh, nth_error MM i = Some mm -> nth_error HH i = Some hh -> exists q, f mm hh = Some q) ->
  exists qs, all_rows f MM HH = Some qs /\ length qs = length MM /\
    forall i mm hh, nth_error MM i = Some mm -> nth_error HH i = Some hh -> exists q, f mm hh = Some q /\ nth_error qs i = Some q.
Proof.
  intros f. induction MM as [|mm MM IH]; intros [|hh HH] L F; try discriminate.
  - exists []. split; [reflexivity|]. split; [reflexivity|]. intros [|i] ? ? E; discriminate.
  - cbn [length] in L. destruct (IH HH ltac:(lia) (fun i => F (S i))) as [qs [E [Q1 Q2]]].
    destruct (F 0%nat mm hh eq_refl eq_refl) as [q Q]. cbn [all_rows]. rewrite Q, E. exists (q :: qs).
    split; [reflexivity|]. split; [cbn; lia|]. intros [|i] m h E1 E2; cbn in *.
    + injection E1 as <-. injection E2 as <-. eauto.
    + eauto.
Qed.

Lemma divide_ratio : forall a b c, ratio a b c (divide a b c).
Proof. intros. unfold ratio, divide. destruct (Req_EM_T b 0); auto. Qed.

Lemma C84_total_aux : forall width dvbin MM HH, width <= 0 -> length MM = length HH ->
  exists qs, get_metallicity width dvbin MM HH = Some qs /\ length qs = length MM /\
    forall i mm hh, nth_error MM i = Some mm -> nth_error HH i = Some hh ->
      exists q, nth_error qs i = Some q /\ ratio (sum mm) (sum hh) (0.0134 / 0.7381) q.
Proof.
  intros width dvbin MM HH W L. unfold get_metallicity. destruct (Rlt_dec 0 width); [lra|].
  destruct (all_rows_spec (fun mm hh => Some (divide (rsum mm) (rsum hh) solarz)) MM HH L) as [qs [E [Q1 Q2]]]; [eauto|].
  exists qs. split; [exact E|]. split; [exact Q1|]. intros i mm hh M H. destruct (Q2 i mm hh M H) as [q [D N]]. exists q.
  split; [exact N|]. injection D as <-. apply divide_ratio.
Qed.

(** One sightline. *)
Lemma peak_sums_spec : forall width dvbin mm hh p w, 0 < width -> 0 < dvbin -> whole width dvbin w -> length mm = length hh ->
  first_peak hh p ->
  let w' := Nat.min w (length hh / 2) in
  peak_sums width dvbin mm hh = Some (around mm p w', around hh p w').
Proof.
  intros width dvbin mm hh p w WP D W L P w'. unfold peak_sums, roll_of. destruct (proj1 (argmax_peak hh p) P) as [v ->].
  rewrite (trunc_whole width dvbin w WP D W). rewrite L. fold w'.
  rewrite !slice_around by (assumption || apply Nat.le_min_r || reflexivity). reflexivity.
Qed.

Lemma C84_window_aux : forall width dvbin MM HH w, 0 < width -> 0 < dvbin -> whole width dvbin w -> HH <> [] ->
  length MM = length HH -> (forall i mm hh, nth_error MM i = Some mm -> nth_error HH i = Some hh -> length mm = length hh /\ hh <> []) ->
  exists qs, get_metallicity width dvbin MM HH = Some qs /\ length qs = length MM /\
    forall i mm hh p, nth_error MM i = Some mm -> nth_error HH i = Some hh -> first_peak hh p ->
      let w' := Nat.min w (length hh / 2) in
      exists q, nth_error qs i = Some q /\ ratio (around mm p w') (around hh p w') (0.0134 / 0.7381) q.
Proof.
  intros width dvbin MM HH w WP D W NE L R0. unfold get_metallicity. destruct (Rlt_dec 0 width); [|lra].
  set (f := fun mm hh => match peak_sums width dvbin mm hh with Some (m, h) => Some (divide m h solarz) | None => None end).
  destruct (all_rows_spec f MM HH L) as [qs [E [Q1 Q2]]].
  - intros i mm hh M H. destruct (R0 i mm hh M H) as [LE NE']. destruct (FilterProofs.argmax_some hh NE') as [p [v A]].
    unfold f. rewrite (peak_sums_spec width dvbin mm hh p w WP D W LE (proj2 (argmax_peak hh p) (ex_intro _ v A))). eauto.
  - exists qs. split; [destruct HH; [congruence|exact E]|]. split; [exact Q1|]. intros i mm hh p M H P.
    destruct (Q2 i mm hh M H) as [q [D' N]]. exists q. split; [exact N|]. destruct (R0 i mm hh M H) as [LE _].
    unfold f in D'. rewrite (peak_sums_spec width dvbin mm hh p w WP D W LE P) in D'. injection D' as <-. apply divide_ratio.
Qed.

Lemma C84_error_aux : forall width dvbin MM HH, 0 < width -> MM <> [] -> length MM = length HH ->
  (get_metallicity width dvbin MM HH = None <-> In [] HH).
Proof.
  intros width dvbin MM HH W NE L. unfold get_metallicity. destruct (Rlt_dec 0 width); [|lra].
  destruct HH as [|h0 H0]; [destruct MM; [congruence|discriminate]|]. set (HH := h0 :: H0) in *. clearbody HH. clear NE h0 H0.
  revert HH L. induction MM as [|mm MM IH]; intros [|hh HH] L; try discriminate.
  - cbn. split; [discriminate|intros []].
  - cbn [length] in L. cbn [all_rows In]. specialize (IH HH ltac:(lia)).
    destruct hh as [|x hh].
    + unfold peak_sums at 1, roll_of. cbn. split; auto.
    + destruct (FilterProofs.argmax_some (x :: hh) ltac:(discriminate)) as [p [v A]].
      unfold peak_sums at 1, roll_of. rewrite A.
      destruct (all_rows _ MM HH); split.
      * discriminate.
      * intros [Q|Q]; [discriminate|]. apply IH in Q. discriminate.
      * intros _. right. apply IH. reflexivity.
      * reflexivity.
Qed.

(** ** Consequences *)

Lemma sum_le : forall (f g : nat -> R) l, (forall i, In i l -> f i <= g i) -> sum (map f l) <= sum (map g l).
Proof. intros f g l H. induction l as [|x l IH]; cbn; [lra|]. specialize (H x (or_introl eq_refl)) as H0. assert (sum (map f l) <= sum (map g l)) by (apply IH; intros; apply H; right; assumption). unfold sum in *. lra. Qed.
Lemma sum_scal : forall c (f : nat -> R) l, sum (map (fun i => c * f i) l) = c * sum (map f l).
Proof. intros c f l. unfold sum. induction l as [|x l IH]; cbn; [ring|]. rewrite IH. ring. Qed.
Lemma sum_pos : forall (f : nat -> R) l, l <> [] -> (forall i, In i l -> 0 < f i) -> 0 < sum (map f l).
Proof.
  intros f l NE H. destruct l as [|x l]; [congruence|]. clear NE. cbn. assert (0 < f x) by (apply H; left; reflexivity).
  assert (0 <= sum (map f l)).
  { clear H0. induction l as [|y l IH]; cbn; [lra|]. assert (0 < f y) by (apply H; right; left; reflexivity).
    unfold sum in *. assert (0 <= fold_right Rplus 0 (map f l)) by (apply IH; intros i [->|I]; apply H; [left|right; right]; auto). lra. }
  unfold sum in *. lra.
Qed.

Lemma pixel_in : forall (row : list R) i, row <> [] -> exists j, (j < length row)%nat /\ forall row' : list R, length row' = length row -> pixel row' i = nth j row' 0.
Proof.
  intros row i NE. exists (Z.to_nat (i mod Z.of_nat (length row))). assert (0 < length row)%nat by (destruct row; [congruence|cbn; lia]).
  assert (B := Z.mod_pos_bound i (Z.of_nat (length row)) ltac:(lia)). split; [lia|]. intros row' E. unfold pixel. rewrite E. reflexivity.
Qed.

(** A weighted mean. *)
Lemma mean_between : forall (f g : nat -> R) l z1 z2 c q, l <> [] -> 0 < c -> (forall i, In i l -> 0 < g i /\ z1 * c * g i <= f i <= z2 * c * g i) ->
  ratio (sum (map f l)) (sum (map g l)) c q -> exists z, q = Num z /\ z1 <= z <= z2.
Proof.
  intros f g l z1 z2 c q NE C H Q. assert (P : 0 < sum (map g l)) by (apply sum_pos; [exact NE|apply H]).
  assert (LO : z1 * c * sum (map g l) <= sum (map f l)) by (rewrite <- sum_scal; apply sum_le; apply H).
  assert (HI : sum (map f l) <= z2 * c * sum (map g l)) by (rewrite <- sum_scal; apply sum_le; apply H).
  destruct Q as [[Q _]|[_ ->]]; [lra|]. exists (sum (map f l) / sum (map g l) / c). split; [reflexivity|].
  set (a := sum (map f l)) in *. set (b := sum (map g l)) in *. clearbody a b.
  assert (BC : 0 < b * c) by (apply Rmult_lt_0_compat; assumption).
  split; apply (Rmult_le_reg_r (b * c)); try assumption; replace (a / b / c * (b * c)) with a by (field; split; lra); lra.
Qed.

Lemma sum_nth : forall row, sum row = sum (map (fun i => nth i row 0) (seq 0 (length row))).
Proof.
  induction row as [|x row IH]; [reflexivity|]. cbn [length seq map]. rewrite seq_shift0, map_map. unfold sum in *. cbn [fold_right nth].
  f_equal. exact IH.
Qed.

Lemma C84_between_aux : forall width dvbin MM HH qs i mm hh q z1 z2, 0 < dvbin -> width <= 0 \/ dvbin <= width ->
  length MM = length HH -> (forall i mm hh, nth_error MM i = Some mm -> nth_error HH i = Some hh -> length mm = length hh /\ (2 <= length hh)%nat) ->
  get_metallicity width dvbin MM HH = Some qs -> nth_error MM i = Some mm -> nth_error HH i = Some hh -> nth_error qs i = Some q ->
  (forall j, (j < length hh)%nat -> 0 < nth j hh 0 /\ z1 * (0.0134 / 0.7381) * nth j hh 0 <= nth j mm 0 <= z2 * (0.0134 / 0.7381) * nth j hh 0) ->
  exists z, q = Num z /\ z1 <= z <= z2.
Proof.
  intros width dvbin MM HH qs i mm hh q z1 z2 D WW L SZ G M H Q B. destruct (SZ i mm hh M H) as [LE TWO].
  assert (C : 0 < 0.0134 / 0.7381) by lra.
  assert (NEh : hh <> []) by (intros ->; cbn in TWO; lia).
  assert (NEHH : HH <> []) by (intros ->; destruct i; discriminate).
  destruct WW as [W|W].
  - destruct (C84_total_aux width dvbin MM HH W L) as [qs' [E [_ F]]]. rewrite G in E. injection E as <-.
    destruct (F i mm hh M H) as [q' [Q' RT]]. rewrite Q in Q'. injection Q' as <-. rewrite (sum_nth mm), (sum_nth hh) in RT. rewrite LE in RT.
    eapply mean_between; [|exact C| |exact RT].
    + destruct (length hh); [lia|discriminate].
    + intros j J. apply in_seq in J. apply B. lia.
  - assert (WP : 0 < width) by lra.
    destruct (SetupProofs.trunc_spec width dvbin D ltac:(lra)) as [[F1 F2] X].
    set (k := trunc (width / dvbin)) in *. clearbody k.
    assert (K : (1 <= k)%Z). { apply Z.lt_succ_r. unfold Z.succ. apply lt_IZR. rewrite plus_IZR. apply (Rmult_lt_reg_r dvbin); lra. }
    assert (WH : whole width dvbin (Z.to_nat k)).
    { unfold whole. rewrite S_INR, INR_IZR_INZ, Z2Nat.id by lia. lra. }
    destruct (C84_window_aux width dvbin MM HH (Z.to_nat k) WP D WH NEHH L) as [qs' [E [_ F]]].
    { intros i0 m0 h0 M0 H0. destruct (SZ i0 m0 h0 M0 H0). split; [assumption|]. intros ->. cbn in *. lia. }
    rewrite G in E. injection E as <-.
    destruct (FilterProofs.argmax_some hh NEh) as [p [v A]].
    destruct (F i mm hh p M H (proj2 (argmax_peak hh p) (ex_intro _ v A))) as [q' [Q' RT]]. rewrite Q in Q'. injection Q' as <-.
    cbv zeta in RT. unfold around in RT. eapply mean_between; [|exact C| |exact RT].
    + assert (1 <= length hh / 2)%nat by (apply Nat.div_le_lower_bound; lia).
      set (w' := Nat.min (Z.to_nat k) (length hh / 2)). assert (1 <= w')%nat by (unfold w'; lia). destruct w'; [lia|discriminate].
    + intros j _. cbv beta. destruct (pixel_in hh (Z.of_nat p - Z.of_nat (Nat.min (Z.to_nat k) (length hh / 2)) + Z.of_nat j) NEh) as [m [ML E]].
      rewrite (E hh eq_refl), (E mm LE). apply B, ML.
Qed.

(** Periodic sums. *)
Lemma pixel_period : forall row i, pixel row (i + Z.of_nat (length row)) = pixel row i.
Proof.
  intros row i. unfold pixel. destruct row as [|x row]; [destruct (Z.to_nat _), (Z.to_nat _); reflexivity|].
  rewrite <- (Z_mod_plus_full i 1 (Z.of_nat (length (x :: row)))). rewrite Z.mul_1_l. reflexivity.
Qed.

Lemma sum_snoc : forall l x, sum (l ++ [x]) = sum l + x.
Proof. unfold sum. induction l as [|y l IH]; intros x; cbn; [ring|]. rewrite IH. ring. Qed.

Lemma period_step : forall row a, sum (map (fun k => pixel row (a + 1 + Z.of_nat k)) (seq 0 (length row))) =
  sum (map (fun k => pixel row (a + Z.of_nat k)) (seq 0 (length row))).
Proof.
  intros row a. set (n := length row). 
  assert (A : sum (map (fun k => pixel row (a + Z.of_nat k)) (seq 0 (S n))) =
              pixel row a + sum (map (fun k => pixel row (a + 1 + Z.of_nat k)) (seq 0 n))).
  { cbn [seq map]. rewrite (seq_shift0 1), map_map. unfold sum at 1. cbn [fold_right]. rewrite Z.add_0_r. f_equal.
    unfold sum. f_equal. apply map_ext. intros k. f_equal. lia. }
  assert (B : sum (map (fun k => pixel row (a + Z.of_nat k)) (seq 0 (S n))) =
              sum (map (fun k => pixel row (a + Z.of_nat k)) (seq 0 n)) + pixel row (a + Z.of_nat n)).
  { rewrite seq_S, map_app. cbn [map plus]. apply sum_snoc. }
  assert (PP : pixel row (a + Z.of_nat n) = pixel row a) by apply pixel_period. lra.
Qed.

Lemma period_sum : forall row a, sum (map (fun k => pixel row (a + Z.of_nat k)) (seq 0 (length row))) = sum row.
Proof.
  intros row a. transitivity (sum (map (fun k => pixel row (0 + Z.of_nat k)) (seq 0 (length row)))).
  - revert a. apply Z.peano_ind; [reflexivity| |].
    + intros a IH. rewrite <- IH. unfold Z.succ. apply period_step.
    + intros a IH. rewrite <- IH. rewrite <- (period_step row (Z.pred a)). f_equal. apply map_ext. intros. f_equal. lia.
  - rewrite (sum_nth row). f_equal. apply map_ext_in. intros k K. apply in_seq in K. unfold pixel. f_equal.
    rewrite Z.mod_small by lia. lia.
Qed.

Lemma around_half : forall row p, Nat.even (length row) = true -> around row p (length row / 2) = sum row.
Proof.
  intros row p E. unfold around. assert (N : (2 * (length row / 2) = length row)%nat).
  { apply Nat.even_spec in E. destruct E as [k E]. rewrite E. rewrite (Nat.mul_comm 2 k), Nat.div_mul by lia. lia. }
  rewrite N. apply period_sum.
Qed.

Lemma C84_wide_aux : forall width dvbin MM HH, 0 < width -> 0 < dvbin -> HH <> [] -> length MM = length HH ->
  (forall i mm hh, nth_error MM i = Some mm -> nth_error HH i = Some hh -> length mm = length hh /\ hh <> [] /\
     Nat.even (length hh) = true /\ INR (length hh) / 2 * dvbin <= width) ->
  get_metallicity width dvbin MM HH = get_metallicity 0 dvbin MM HH.
Proof.
  intros width dvbin MM HH WP D NE L SZ.
  destruct (SetupProofs.trunc_spec width dvbin D ltac:(lra)) as [[F1 F2] X].
  set (k := trunc (width / dvbin)) in *. clearbody k.
  assert (K : (0 <= k)%Z). { apply Z.lt_succ_r. unfold Z.succ. apply lt_IZR. rewrite plus_IZR. apply (Rmult_lt_reg_r dvbin); lra. }
  assert (WH : whole width dvbin (Z.to_nat k)).
  { unfold whole. rewrite S_INR, INR_IZR_INZ, Z2Nat.id by lia. lra. }
  unfold get_metallicity. destruct (Rlt_dec 0 width); [|lra]. destruct (Rlt_dec 0 0); [lra|].
  destruct HH as [|h0 H0]; [congruence|]. set (HH := h0 :: H0) in *. clearbody HH. clear NE h0 H0.
  revert HH L SZ. induction MM as [|mm MM IH]; intros [|hh HH] L SZ; try discriminate; [reflexivity|].
  cbn [all_rows length] in *. destruct (SZ 0%nat mm hh eq_refl eq_refl) as [LE [NE [EV BW]]].
  destruct (FilterProofs.argmax_some hh NE) as [p [v A]].
  rewrite (peak_sums_spec width dvbin mm hh p (Z.to_nat k) WP D WH LE (proj2 (argmax_peak hh p) (ex_intro _ v A))).
  assert (MN : Nat.min (Z.to_nat k) (length hh / 2) = (length hh / 2)%nat).
  { apply Nat.min_r. assert (Z.of_nat (length hh / 2) < k + 1)%Z; [|lia]. apply lt_IZR. rewrite plus_IZR, <- INR_IZR_INZ.
    apply Nat.even_spec in EV. destruct EV as [h E]. rewrite E in *. rewrite (Nat.mul_comm 2 h), Nat.div_mul by lia.
    rewrite mult_INR in BW. change (INR 2) with 2 in BW. apply (Rmult_lt_reg_r dvbin); [exact D|]. 
    replace (2 * INR h / 2) with (INR h) in BW by field. lra. }
  change rsum with sum. rewrite MN. assert (A1 : around mm p (length hh / 2) = sum mm) by (rewrite <- LE; apply around_half; rewrite LE; exact EV). rewrite A1, (around_half hh p EV).
  rewrite (IH HH ltac:(lia) (fun i => SZ (S i))). reflexivity.
Qed.

Lemma C84_narrow_aux : forall width dvbin MM HH qs q, 0 < width < dvbin -> length MM = length HH ->
  (forall i mm hh, nth_error MM i = Some mm -> nth_error HH i = Some hh -> length mm = length hh) ->
  get_metallicity width dvbin MM HH = Some qs -> In q qs -> q = NotFinite.
Proof.
  intros width dvbin MM HH qs q W L SZ G I. unfold get_metallicity in G. destruct (Rlt_dec 0 width); [|lra].
  destruct HH as [|h0 H0]; [discriminate|]. set (HH := h0 :: H0) in *. clearbody HH. clear h0 H0.
  assert (WH : whole width dvbin 0) by (unfold whole; cbn; lra).
  revert HH qs L SZ G I. induction MM as [|mm MM IH]; intros [|hh HH] qs L SZ G I; try discriminate.
  - injection G as <-. destruct I.
  - cbn [all_rows length] in *. assert (LE := SZ 0%nat mm hh eq_refl eq_refl).
    destruct hh as [|x hh]; [unfold peak_sums, roll_of in G; cbn in G; discriminate|].
    destruct (FilterProofs.argmax_some (x :: hh) ltac:(discriminate)) as [p [v A]].
    rewrite (peak_sums_spec width dvbin mm (x :: hh) p 0 ltac:(lra) ltac:(lra) WH LE (proj2 (argmax_peak _ p) (ex_intro _ v A))) in G.
    change (Nat.min 0 (length (x :: hh) / 2)) with 0%nat in G.
    assert (Z0 : forall r, around r p 0 = 0) by reflexivity. rewrite !Z0 in G.
    assert (DZ : divide 0 0 solarz = NotFinite) by (unfold divide; destruct (Req_EM_T 0 0); [reflexivity|congruence]). rewrite DZ in G.
    destruct (all_rows _ MM HH) as [qs'|] eqn:E; [|discriminate]. injection G as <-. destruct I as [<-|I]; [reflexivity|].
    apply (IH HH qs' ltac:(lia) (fun i => SZ (S i)) E I).
Qed.

(** Only one pixel has metals. *)
Definition spike (n : nat) (j : Z) (x : R) : list R :=
  map (fun i => if Nat.eqb i (Z.to_nat (j mod Z.of_nat n)) then x else 0) (seq 0 n).

Lemma spike_length : forall n j x, length (spike n j x) = n.
Proof. intros. unfold spike. rewrite map_length, seq_length. reflexivity. Qed.

Lemma spike_pixel : forall n j x i, (0 < n)%nat -> pixel (spike n j x) i = if Z.eqb (i mod Z.of_nat n) (j mod Z.of_nat n) then x else 0.
Proof.
  intros n j x i N. unfold pixel. rewrite spike_length.
  assert (B := Z.mod_pos_bound i (Z.of_nat n) ltac:(lia)). assert (B' := Z.mod_pos_bound j (Z.of_nat n) ltac:(lia)).
  unfold spike. set (f := fun i0 => if Nat.eqb i0 (Z.to_nat (j mod Z.of_nat n)) then x else 0).
  rewrite (nth_indep _ 0 (f 0%nat)) by (rewrite map_length, seq_length; lia). rewrite map_nth, seq_nth by lia. unfold f.
  cbn [plus]. destruct (Z.eqb_spec (i mod Z.of_nat n) (j mod Z.of_nat n)) as [E|E].
  - rewrite E, Nat.eqb_refl. reflexivity.
  - destruct (Nat.eqb_spec (Z.to_nat (i mod Z.of_nat n)) (Z.to_nat (j mod Z.of_nat n))); [lia|reflexivity].
Qed.

Lemma sum_zero : forall (f : nat -> R) l, (forall i, In i l -> f i = 0) -> sum (map f l) = 0.
Proof. intros f l H. unfold sum. induction l as [|x l IH]; cbn; [reflexivity|]. rewrite (H x (or_introl eq_refl)), IH; [ring|]. intros; apply H; right; assumption. Qed.

Lemma mod_same : forall a b n, (0 < n)%Z -> (a mod n = b mod n)%Z -> (Z.abs (a - b) < n)%Z -> a = b.
Proof.
  intros a b n N E AB. assert (A := Z.div_mod a n ltac:(lia)). assert (B := Z.div_mod b n ltac:(lia)).
  assert (D : (a - b = n * (a / n - b / n))%Z) by lia. assert (Q : (a / n - b / n = 0)%Z) by nia. lia.
Qed.

Lemma spike_around : forall n p w x, (1 <= w)%nat -> (2 * w < n)%nat ->
  around (spike n (Z.of_nat p - Z.of_nat w) x) p w = x /\ around (spike n (Z.of_nat p + Z.of_nat w) x) p w = 0.
Proof.
  intros n p w x W N. unfold around. split.
  - replace (2 * w)%nat with (S (2 * w - 1)) by lia. cbn [seq map]. unfold sum at 1. cbn [fold_right]. fold (sum).
    rewrite spike_pixel by lia. rewrite Z.add_0_r, Z.eqb_refl.
    change (fold_right Rplus 0) with sum. rewrite sum_zero; [ring|]. intros k K. apply in_seq in K. rewrite spike_pixel by lia.
    destruct (Z.eqb_spec ((Z.of_nat p - Z.of_nat w + Z.of_nat k) mod Z.of_nat n) ((Z.of_nat p - Z.of_nat w) mod Z.of_nat n)) as [E|E]; [|reflexivity].
    apply mod_same in E; lia.
  - apply sum_zero. intros k K. apply in_seq in K. rewrite spike_pixel by lia.
    destruct (Z.eqb_spec ((Z.of_nat p - Z.of_nat w + Z.of_nat k) mod Z.of_nat n) ((Z.of_nat p + Z.of_nat w) mod Z.of_nat n)) as [E|E]; [|reflexivity].
    apply mod_same in E; lia.
Qed.

Lemma C84_asymmetric_aux : forall width dvbin hh p w x, 0 < width -> 0 < dvbin -> whole width dvbin w ->
  (1 <= w)%nat -> (2 * w < length hh)%nat -> first_peak hh p -> (forall j, (j < length hh)%nat -> 0 < nth j hh 0) -> 0 < x ->
  exists mm mm', (forall i, pixel mm (Z.of_nat p - i) = pixel mm' (Z.of_nat p + i)) /\ length mm = length hh /\ length mm' = length hh /\
    pixel mm (Z.of_nat p - Z.of_nat w) = x /\
    get_metallicity width dvbin [mm] [hh] = Some [Num (x / around hh p w / (0.0134 / 0.7381))] /\
    get_metallicity width dvbin [mm'] [hh] = Some [Num 0].
Proof.
  intros width dvbin hh p w x WP D WH W1 W2 P POS X. set (n := length hh) in *.
  exists (spike n (Z.of_nat p - Z.of_nat w) x), (spike n (Z.of_nat p + Z.of_nat w) x).
  assert (NP : (0 < n)%nat) by lia.
  split; [|split; [apply spike_length|split; [apply spike_length|split]]].
  - intros i. rewrite !spike_pixel by lia.
    assert (E : ((Z.of_nat p - i) mod Z.of_nat n = (Z.of_nat p - Z.of_nat w) mod Z.of_nat n <->
                 (Z.of_nat p + i) mod Z.of_nat n = (Z.of_nat p + Z.of_nat w) mod Z.of_nat n)%Z).
    { assert (M : forall a b : Z, (a mod Z.of_nat n = b mod Z.of_nat n <-> (Z.of_nat n | a - b))%Z).
      { intros a b. split.
        - intros Q. apply Z.mod_divide; [lia|]. rewrite Zminus_mod, Q, Z.sub_diag. apply Z.mod_0_l. lia.
        - intros [c Q]. replace a with (b + c * Z.of_nat n)%Z by lia. apply Z_mod_plus_full. }
      rewrite !M. split; intros [c Q]; exists (- c)%Z; lia. }
    destruct (Z.eqb_spec ((Z.of_nat p - i) mod Z.of_nat n) ((Z.of_nat p - Z.of_nat w) mod Z.of_nat n)) as [A|A],
      (Z.eqb_spec ((Z.of_nat p + i) mod Z.of_nat n) ((Z.of_nat p + Z.of_nat w) mod Z.of_nat n)) as [B|B]; try reflexivity; tauto.
  - rewrite spike_pixel by lia. rewrite Z.eqb_refl. reflexivity.
  - assert (NEh : hh <> []) by (intros ->; unfold n in NP; cbn in NP; lia).
    assert (HP : 0 < around hh p w).
    { unfold around. apply sum_pos; [destruct w; [lia|discriminate]|]. intros k _.
      destruct (pixel_in hh (Z.of_nat p - Z.of_nat w + Z.of_nat k) NEh) as [j [J E]]. rewrite (E hh eq_refl). apply POS, J. }
    assert (MN : Nat.min w (n / 2) = w) by (apply Nat.min_l, Nat.div_le_lower_bound; lia).
    destruct (spike_around n p w x W1 W2) as [A1 A2].
    assert (ONE : forall mm, length mm = n -> get_metallicity width dvbin [mm] [hh] = Some [Num (around mm p w / around hh p w / (0.0134 / 0.7381))]).
    { intros mm LE. unfold get_metallicity. destruct (Rlt_dec 0 width); [|lra]. cbn [all_rows].
      rewrite (peak_sums_spec width dvbin mm hh p w WP D WH LE P). fold n. rewrite MN. unfold divide.
      destruct (Req_EM_T (around hh p w) 0); [lra|]. reflexivity. }
    rewrite !ONE by apply spike_length. rewrite A1, A2. split; [reflexivity|]. do 3 f_equal. unfold Rdiv. ring.
Qed.

(** ** Moving both spectra *)

Lemma around_moved : forall k row row' p p' w, moved k row row' -> row <> [] ->
  (Z.of_nat p' mod Z.of_nat (length row) = (Z.of_nat p + k) mod Z.of_nat (length row))%Z -> around row' p' w = around row p w.
Proof.
  intros k row row' p p' w [L MV] NE E. unfold around. f_equal. apply map_ext. intros j. rewrite MV. unfold pixel. do 2 f_equal.
  set (n := Z.of_nat (length row)) in *. assert (N : (0 < n)%Z) by (unfold n; destruct row; [congruence|cbn; lia]).
  assert (D : exists c, (Z.of_nat p' = Z.of_nat p + k + c * n)%Z).
  { exists (Z.of_nat p' / n - (Z.of_nat p + k) / n)%Z. assert (A := Z.div_mod (Z.of_nat p') n ltac:(lia)). assert (B := Z.div_mod (Z.of_nat p + k) n ltac:(lia)). lia. }
  destruct D as [c D]. rewrite <- (Z_mod_plus_full (Z.of_nat p - Z.of_nat w + Z.of_nat j) c n). f_equal. lia.
Qed.

Lemma C84_moved_aux : forall width dvbin mm hh mm' hh' k, 0 < dvbin -> hh <> [] -> length mm = length hh ->
  moved k mm mm' -> moved k hh hh' ->
  (exists p, (p < length hh)%nat /\ forall i, (i < length hh)%nat -> i <> p -> nth i hh 0 < nth p hh 0) ->
  get_metallicity width dvbin [mm'] [hh'] = get_metallicity width dvbin [mm] [hh].
Proof.
  intros width dvbin mm hh mm' hh' k D NE LE M H [p [PL U]]. unfold get_metallicity. cbn [all_rows].
  assert (NEm : mm <> []) by (destruct mm, hh; cbn in LE; congruence).
  assert (NE' : hh' <> []) by (destruct H as [L _]; destruct hh, hh'; cbn in L; congruence).
  assert (SUM : forall row row', moved k row row' -> sum row' = sum row).
  { intros row row' [L MV]. rewrite <- (period_sum row' 0), <- (period_sum row (- k)). rewrite L. f_equal. apply map_ext. intros j. rewrite MV. f_equal. lia. }
  destruct (Rlt_dec 0 width) as [WP|WP]; [|change rsum with sum; rewrite (SUM _ _ M), (SUM _ _ H); reflexivity].
  destruct (SetupProofs.trunc_spec width dvbin D ltac:(lra)) as [[F1 F2] X].
  set (t := trunc (width / dvbin)) in *. clearbody t.
  assert (T : (0 <= t)%Z). { apply Z.lt_succ_r. unfold Z.succ. apply lt_IZR. rewrite plus_IZR. apply (Rmult_lt_reg_r dvbin); lra. }
  assert (WH : whole width dvbin (Z.to_nat t)).
  { unfold whole. rewrite S_INR, INR_IZR_INZ, Z2Nat.id by lia. lra. }
  assert (P : first_peak hh p).
  { split; [exact PL|]. split.
    - intros i I. destruct (Nat.eq_dec i p) as [->|N]; [lra|]. left. apply U; assumption.
    - intros i I. apply U; lia. }
  destruct (FilterProofs.argmax_some hh' NE') as [p' [v A]]. assert (P' := proj2 (argmax_peak hh' p') (ex_intro _ v A)).
  assert (LE' : length mm' = length hh') by (destruct M as [M _], H as [H _]; congruence).
  rewrite (peak_sums_spec width dvbin mm hh p (Z.to_nat t) WP D WH LE P).
  rewrite (peak_sums_spec width dvbin mm' hh' p' (Z.to_nat t) WP D WH LE' P').
  assert (LH := proj1 H). rewrite LH.
  assert (E : (Z.of_nat p' mod Z.of_nat (length hh) = (Z.of_nat p + k) mod Z.of_nat (length hh))%Z).
  { destruct P' as [Q1 [Q2 _]]. rewrite LH in Q1, Q2. set (n := length hh) in *.
    assert (B := Z.mod_pos_bound (Z.of_nat p' - k) (Z.of_nat n) ltac:(lia)).
    set (j := Z.to_nat ((Z.of_nat p' - k) mod Z.of_nat n)).
    assert (PX : forall i, (i < n)%nat -> nth i hh' 0 = pixel hh (Z.of_nat i - k)).
    { intros i I. rewrite <- (proj2 H). unfold pixel. rewrite LH. f_equal. fold n. rewrite Z.mod_small by lia. lia. }
    destruct (Nat.eq_dec j p) as [JP|JP].
    - assert (J : ((Z.of_nat p' - k) mod Z.of_nat n = Z.of_nat p)%Z) by (unfold j in JP; lia).
      rewrite <- J. rewrite Z.add_mod_idemp_l by lia. f_equal. lia.
    - exfalso. assert (JN : (j < n)%nat) by (unfold j; lia). specialize (U j JN JP).
      set (i := Z.to_nat ((Z.of_nat p + k) mod Z.of_nat n)). assert (B2 := Z.mod_pos_bound (Z.of_nat p + k) (Z.of_nat n) ltac:(lia)).
      specialize (Q2 i ltac:(unfold i; lia)). rewrite (PX i) in Q2 by (unfold i; lia). rewrite (PX p') in Q2 by lia.
      assert (E1 : pixel hh (Z.of_nat i - k) = nth p hh 0).
      { unfold pixel. fold n. f_equal. unfold i. rewrite Z2Nat.id by lia. rewrite Zminus_mod_idemp_l. replace (Z.of_nat p + k - k)%Z with (Z.of_nat p) by lia.
        rewrite Z.mod_small by lia. lia. }
      assert (E2 : pixel hh (Z.of_nat p' - k) = nth j hh 0) by reflexivity. lra. }
  rewrite (around_moved k mm mm' p p' _ M NEm) by (rewrite LE; exact E). rewrite (around_moved k hh hh' p p' _ H NE E). reflexivity.
Qed.

(** ** Ions *)

Lemma C84_ion_aux : forall species MM HH, length MM = length HH ->
  (forall s, In (species, s) abundances -> exists qs, get_ion_metallicity species MM HH = Some qs /\ length qs = length MM /\
    forall i mm hh, nth_error MM i = Some mm -> nth_error HH i = Some hh ->
      exists q, nth_error qs i = Some q /\ ratio (sum mm) (sum hh) s q) /\
  (~ In species (map fst abundances) -> get_ion_metallicity species MM HH = None).
Proof.
  intros species MM HH L. unfold get_ion_metallicity. split.
  - intros s I. assert (LK : look solar species = Some s).
    { unfold abundances in I. cbn [In] in I. repeat (destruct I as [I|I]; [injection I as <- <-; reflexivity|]). destruct I. }
    rewrite LK. destruct (all_rows_spec (fun mm hh => Some (divide (rsum mm) (rsum hh) s)) MM HH L) as [qs [E [Q1 Q2]]]; [eauto|].
    exists qs. split; [exact E|]. split; [exact Q1|]. intros i mm hh M H. destruct (Q2 i mm hh M H) as [q [D N]]. exists q.
    split; [exact N|]. injection D as <-. apply divide_ratio.
  - intros N. assert (LK : look solar species = None).
    { change solar with abundances. revert N. generalize abundances. induction l as [|[n v] d IH]; intros N; [reflexivity|]. cbn [look map fst In] in *.
      destruct (String.eqb_spec species n) as [E|E]; [exfalso; apply N; left; congruence|]. apply IH. tauto. }
    rewrite LK. reflexivity.
Qed.
