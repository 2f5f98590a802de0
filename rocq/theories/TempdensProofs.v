(** Proofs about the temperature-density relation (C83). *)
From Coq Require Import List Bool Reals Permutation Lia Lra.
From Verif Require Import QuantModel GaspropModel GaspropSpec GaspropProofs OmegaModel TempdensModel TempdensSpec.
Import ListNotations.
Local Open Scope R_scope.

(** ** Least squares *)

Definition rs (f : R * R -> R) (pts : list (R * R)) : R := fold_right (fun p s => f p + s) 0 pts.

Lemma rs_ext : forall f g pts, (forall p, f p = g p) -> rs f pts = rs g pts.
Proof. intros f g pts H. induction pts as [|p pts IH]; [reflexivity|]. cbn [rs fold_right]. change (f p + rs f pts = g p + rs g pts). rewrite H, IH. reflexivity. Qed.

Lemma rs_lin : forall f g u v pts, rs (fun p => u * f p + v * g p) pts = u * rs f pts + v * rs g pts.
Proof.
  intros f g u v pts. induction pts as [|p pts IH]; [unfold rs; cbn [fold_right]; ring|].
  change (u * f p + v * g p + rs (fun p => u * f p + v * g p) pts = u * (f p + rs f pts) + v * (g p + rs g pts)). rewrite IH. ring.
Qed.

Lemma rs_pos : forall f pts, (forall p, 0 <= f p) -> 0 <= rs f pts.
Proof.
  intros f pts H. induction pts as [|p pts IH]; [unfold rs; cbn [fold_right]; lra|].
  change (0 <= f p + rs f pts). specialize (H p). lra.
Qed.

Lemma rs_zero : forall f pts, (forall p, 0 <= f p) -> rs f pts = 0 -> forall p, In p pts -> f p = 0.
Proof.
  intros f pts H. induction pts as [|q pts IH]; intros Z p P; [destruct P|].
  change (f q + rs f pts = 0) in Z. assert (A := H q). assert (B := rs_pos f pts H). destruct P as [->|P]; [lra|]. apply IH; [lra|exact P].
Qed.

Lemma squares_rs : forall pts a b, squares pts a b = rs (fun p => (snd p - (a + b * fst p)) ^ 2) pts.
Proof. reflexivity. Qed.

Lemma squares_split : forall pts a b a' b',
  rs (fun p => snd p - (a + b * fst p)) pts = 0 -> rs (fun p => (snd p - (a + b * fst p)) * fst p) pts = 0 ->
  squares pts a' b' = squares pts a b + rs (fun p => ((a' - a) + (b' - b) * fst p) ^ 2) pts.
Proof.
  intros pts a b a' b' N1 N2. rewrite !squares_rs.
  assert (E : rs (fun p => (snd p - (a' + b' * fst p)) ^ 2) pts =
    1 * rs (fun p => 1 * (snd p - (a + b * fst p)) ^ 2 + 1 * ((a' - a) + (b' - b) * fst p) ^ 2) pts +
    1 * rs (fun p => - 2 * (a' - a) * (snd p - (a + b * fst p)) + - 2 * (b' - b) * ((snd p - (a + b * fst p)) * fst p)) pts).
  { rewrite <- rs_lin. apply rs_ext. intros p. ring. }
  rewrite E, (rs_lin (fun p => (snd p - (a + b * fst p)) ^ 2) (fun p => ((a' - a) + (b' - b) * fst p) ^ 2)),
    (rs_lin (fun p => snd p - (a + b * fst p)) (fun p => (snd p - (a + b * fst p)) * fst p)), N1, N2. ring.
Qed.

Lemma spread : forall pts p q u v, In p pts -> In q pts -> fst p <> fst q ->
  rs (fun p => (u + v * fst p) ^ 2) pts = 0 -> u = 0 /\ v = 0.
Proof.
  intros pts p q u v P Q D Z.
  assert (NN : forall p : R * R, 0 <= (u + v * fst p) ^ 2) by (intros; apply pow2_ge_0).
  assert (ZP := rs_zero _ pts NN Z p P). assert (ZQ := rs_zero _ pts NN Z q Q). cbv beta in ZP, ZQ.
  assert (EP : u + v * fst p = 0) by nra. assert (EQ : u + v * fst q = 0) by nra.
  assert (v * (fst p - fst q) = 0) by lra. apply Rmult_integral in H as [H|H]; [|lra]. subst v. lra.
Qed.

Lemma normal_best : forall pts p q a b, In p pts -> In q pts -> fst p <> fst q ->
  rs (fun p => snd p - (a + b * fst p)) pts = 0 -> rs (fun p => (snd p - (a + b * fst p)) * fst p) pts = 0 -> best_line pts a b.
Proof.
  intros pts p q a b P Q D N1 N2 a' b' NE. rewrite (squares_split pts a b a' b' N1 N2).
  assert (NN : 0 <= rs (fun p => ((a' - a) + (b' - b) * fst p) ^ 2) pts) by (apply rs_pos; intros; apply pow2_ge_0).
  destruct (Req_dec (rs (fun p => ((a' - a) + (b' - b) * fst p) ^ 2) pts) 0) as [Z|Z]; [|lra].
  destruct (spread pts p q _ _ P Q D Z). exfalso. apply NE. f_equal; lra.
Qed.

Lemma rs_const : forall c pts, rs (fun _ => c) pts = c * INR (length pts).
Proof.
  intros c pts. induction pts as [|p pts IH]; [unfold rs; cbn; ring|].
  change (c + rs (fun _ => c) pts = c * INR (S (length pts))). rewrite IH, S_INR. ring.
Qed.

Lemma normal_exists : forall pts p q, In p pts -> In q pts -> fst p <> fst q ->
  exists a b, rs (fun p => snd p - (a + b * fst p)) pts = 0 /\ rs (fun p => (snd p - (a + b * fst p)) * fst p) pts = 0.
Proof.
  intros pts p q P Q D. set (n := INR (length pts)). set (sx := rs fst pts). set (sy := rs snd pts).
  set (sxx := rs (fun p => fst p ^ 2) pts). set (sxy := rs (fun p => fst p * snd p) pts).
  assert (NP : 0 < n) by (unfold n; apply lt_0_INR; destruct pts; [destruct P|cbn; lia]).
  assert (DET : n * sxx - sx ^ 2 <> 0).
  { intros Z. set (m := sx / n).
    assert (V : rs (fun p => (- m + 1 * fst p) ^ 2) pts = 0).
    { rewrite (rs_ext _ (fun p => 1 * (1 * fst p ^ 2 + (- 2 * m) * fst p) + 1 * (m ^ 2))) by (intros; ring).
      rewrite (rs_lin (fun p => 1 * fst p ^ 2 + (- 2 * m) * fst p) (fun _ => m ^ 2)).
      rewrite (rs_lin (fun p => fst p ^ 2) fst), rs_const. fold n sxx sx.
      replace (1 * (1 * sxx + -2 * m * sx) + 1 * (m ^ 2 * n)) with ((n * sxx - sx ^ 2) / n) by (unfold m; field; lra). rewrite Z. field. lra. }
    destruct (spread pts p q _ _ P Q D V). lra. }
  set (b := (n * sxy - sx * sy) / (n * sxx - sx ^ 2)). set (a := (sy - b * sx) / n).
  exists a, b. split.
  - rewrite (rs_ext _ (fun p => 1 * snd p + (-1) * (b * fst p + 1 * a))) by (intros; ring).
    rewrite (rs_lin snd (fun p => b * fst p + 1 * a)), (rs_lin fst (fun _ => a)), rs_const. fold n sx sy. unfold a. field. lra.
  - rewrite (rs_ext _ (fun p => 1 * (fst p * snd p) + (-1) * (a * fst p + b * fst p ^ 2))) by (intros; ring).
    rewrite (rs_lin (fun p => fst p * snd p) (fun p => a * fst p + b * fst p ^ 2)), (rs_lin fst (fun p => fst p ^ 2)). fold n sx sxx sxy.
    unfold a, b. field. split; lra.
Qed.

Lemma best_unique : forall pts a b a' b', best_line pts a b -> (forall u v, squares pts a' b' <= squares pts u v) -> a' = a /\ b' = b.
Proof.
  intros pts a b a' b' B M. destruct (Req_dec a' a) as [E1|E1]; [destruct (Req_dec b' b) as [E2|E2]; [auto|]|].
  - assert (X := B a' b' ltac:(congruence)). specialize (M a b). lra.
  - assert (X := B a' b' ltac:(congruence)). specialize (M a b). lra.
Qed.

Lemma selected_spec : forall p, selected p = true <-> in_range p.
Proof.
  intros [x y]. unfold selected, in_range, ltb. cbn [fst snd].
  destruct (Rlt_dec 0 x), (Rlt_dec x 1), (Rlt_dec 0.1 y), (Rlt_dec y 5); cbn [andb]; split; intros; try discriminate; try lra; auto.
Qed.

Lemma restricted_filter : forall pts sel, restricted pts sel <-> filter selected pts = sel.
Proof.
  intros pts sel. split.
  - induction 1 as [|p pts sel I _ IH|p pts sel I _ IH]; [reflexivity| |]; cbn [filter].
    + apply selected_spec in I. rewrite I, IH. reflexivity.
    + destruct (selected p) eqn:E; [apply selected_spec in E; contradiction|exact IH].
  - intros <-. induction pts as [|p pts IH]; [constructor|]. cbn [filter]. destruct (selected p) eqn:E.
    + constructor; [apply selected_spec, E|exact IH].
    + constructor; [|exact IH]. intros I. apply selected_spec in I. congruence.
Qed.

Lemma two_points : forall (l : list (R * R)) p q, In p l -> In q l -> p <> q -> (2 <= length l)%nat.
Proof. intros [|x [|y l]] p q P Q D; cbn in *; [tauto| |lia]. destruct P as [->|[]], Q as [->|[]]. congruence. Qed.

Lemma C83_fit_aux : forall leastsq pts sel p q, minimises leastsq -> restricted pts sel -> In p sel -> In q sel -> fst p <> fst q ->
  exists a b, best_line sel a b /\ fit_temp_dens_relation leastsq pts = Fit (Rpower 10 a) (b + 1).
Proof.
  intros leastsq pts sel p q M RS P Q D. apply restricted_filter in RS.
  destruct (normal_exists sel p q P Q D) as [a [b [N1 N2]]]. assert (B := normal_best sel p q a b P Q D N1 N2).
  exists a, b. split; [exact B|]. unfold fit_temp_dens_relation. rewrite RS.
  assert (L : (2 <= length sel)%nat) by (apply (two_points sel p q P Q); congruence).
  destruct (Nat.ltb_spec (length sel) 2); [lia|].
  specialize (M sel). destruct (leastsq sel) as [a' b']. cbn [fst snd] in M.
  destruct (best_unique sel a b a' b' B M) as [-> ->]. reflexivity.
Qed.

Lemma C83_normal_aux : forall pts p q a b, In p pts -> In q pts -> fst p <> fst q ->
  (best_line pts a b <-> fold_right (fun p s => snd p - (a + b * fst p) + s) 0 pts = 0 /\
                         fold_right (fun p s => (snd p - (a + b * fst p)) * fst p + s) 0 pts = 0).
Proof.
  intros pts p q a b P Q D. split.
  - intros B. destruct (normal_exists pts p q P Q D) as [a' [b' [N1 N2]]].
    assert (B' := normal_best pts p q a' b' P Q D N1 N2).
    destruct (best_unique pts a' b' a b B') as [-> ->]; [|split; assumption].
    intros u v. destruct (Req_dec u a) as [->|E]; [destruct (Req_dec v b) as [->|E]; [lra|]|];
      left; apply B; congruence.
  - intros [N1 N2]. exact (normal_best pts p q a b P Q D N1 N2).
Qed.

Lemma C83_exact_aux : forall leastsq pts p q T0 gamma, minimises leastsq -> 0 < T0 ->
  (forall r, In r pts -> in_range r -> snd r = log10 T0 + (gamma - 1) * fst r) ->
  In p pts -> In q pts -> in_range p -> in_range q -> fst p <> fst q ->
  fit_temp_dens_relation leastsq pts = Fit T0 gamma.
Proof.
  intros leastsq pts p q T0 gamma M TP E P Q IP IQ D.
  set (sel := filter selected pts). assert (RS : restricted pts sel) by (apply restricted_filter; reflexivity).
  assert (PS : In p sel) by (apply filter_In; split; [exact P|apply selected_spec, IP]).
  assert (QS : In q sel) by (apply filter_In; split; [exact Q|apply selected_spec, IQ]).
  destruct (C83_fit_aux leastsq pts sel p q M RS PS QS D) as [a [b [B ->]]].
  assert (Z : squares sel (log10 T0) (gamma - 1) = 0).
  { assert (forall r, In r sel -> snd r = log10 T0 + (gamma - 1) * fst r).
    { intros r I. apply filter_In in I as [I1 I2]. apply E; [exact I1|apply selected_spec, I2]. }
    clear - H. induction sel as [|r sel IH]; [reflexivity|]. rewrite squares_rs in *.
    change ((snd r - (log10 T0 + (gamma - 1) * fst r)) ^ 2 + rs (fun p => (snd p - (log10 T0 + (gamma - 1) * fst p)) ^ 2) sel = 0).
    rewrite IH by (intros; apply H; right; auto). rewrite (H r (or_introl eq_refl)). ring. }
  assert (NN : forall a b, 0 <= squares sel a b) by (intros; rewrite squares_rs; apply rs_pos; intros; apply pow2_ge_0).
  destruct (best_unique sel a b (log10 T0) (gamma - 1) B) as [<- <-]; [intros u v; rewrite Z; apply NN|].
  f_equal; [|lra]. unfold Rpower, log10. assert (0 < ln 10) by (rewrite <- ln_1; apply ln_increasing; lra).
  replace (ln T0 / ln 10 * ln 10) with (ln T0) by (field; lra). apply exp_ln, TP.
Qed.

Lemma squares_perm : forall l l' a b, Permutation l l' -> squares l a b = squares l' a b.
Proof.
  intros l l' a b PM. rewrite !squares_rs. induction PM as [|x l l' _ IH|x y l|l1 l2 l3 _ IH1 _ IH2]; [reflexivity| | |congruence].
  - change ((snd x - (a + b * fst x)) ^ 2 + rs (fun p => (snd p - (a + b * fst p)) ^ 2) l = (snd x - (a + b * fst x)) ^ 2 + rs (fun p => (snd p - (a + b * fst p)) ^ 2) l').
    rewrite IH. reflexivity.
  - unfold rs. cbn [fold_right]. ring.
Qed.

Lemma perm_filter : forall A (f : A -> bool) l l', Permutation l l' -> Permutation (filter f l) (filter f l').
Proof.
  intros A f l l' PM. induction PM as [|x l l' _ IH|x y l|l1 l2 l3 _ IH1 _ IH2]; cbn [filter]; [constructor| | |econstructor; eassumption].
  - destruct (f x); [constructor; exact IH|exact IH].
  - destruct (f x), (f y); try apply Permutation_refl. apply perm_swap.
Qed.

Lemma C83_order_aux : forall leastsq leastsq' pts pts' p q, minimises leastsq -> minimises leastsq' -> Permutation pts pts' ->
  In p pts -> In q pts -> in_range p -> in_range q -> fst p <> fst q ->
  fit_temp_dens_relation leastsq pts = fit_temp_dens_relation leastsq' pts'.
Proof.
  intros leastsq leastsq' pts pts' p q M M' PM P Q IP IQ D.
  assert (SEL : forall l r, Permutation pts l -> In r pts -> in_range r -> In r (filter selected l)).
  { intros l r PL I IR. apply filter_In. split; [apply (Permutation_in r PL I)|apply selected_spec, IR]. }
  destruct (C83_fit_aux leastsq pts (filter selected pts) p q M (proj2 (restricted_filter _ _) eq_refl)
     (SEL pts p (Permutation_refl _) P IP) (SEL pts q (Permutation_refl _) Q IQ) D) as [a [b [B ->]]].
  destruct (C83_fit_aux leastsq' pts' (filter selected pts') p q M' (proj2 (restricted_filter _ _) eq_refl)
     (SEL pts' p PM P IP) (SEL pts' q PM Q IQ) D) as [a' [b' [B' ->]]].
  assert (PF := perm_filter _ selected _ _ PM).
  destruct (best_unique _ a b a' b' B) as [-> ->]; [|reflexivity].
  intros u v. rewrite !(squares_perm _ _ _ _ PF).
  destruct (Req_dec u a') as [->|E]; [destruct (Req_dec v b') as [->|E]; [lra|]|]; left; apply B'; congruence.
Qed.

Lemma C83_few_aux : forall leastsq pts sel, restricted pts sel -> (length sel < 2)%nat ->
  fit_temp_dens_relation leastsq pts = TypeErr.
Proof.
  intros leastsq pts sel RS L. apply restricted_filter in RS. unfold fit_temp_dens_relation. rewrite RS.
  destruct (Nat.ltb_spec (length sel) 2); [reflexivity|lia].
Qed.

(** The closed formula is such a routine. *)
Definition ols (pts : list (R * R)) : R * R :=
  let n := INR (length pts) in let sx := rs fst pts in let sy := rs snd pts in
  let sxx := rs (fun p => fst p ^ 2) pts in let sxy := rs (fun p => fst p * snd p) pts in
  if Req_EM_T (n * sxx - sx ^ 2) 0 then (sy / n, 0)
  else let b := (n * sxy - sx * sy) / (n * sxx - sx ^ 2) in ((sy - b * sx) / n, b).

Lemma ols_minimises : minimises ols.
Proof.
  intros pts u v. destruct pts as [|p0 pts0]; [unfold squares; cbn; lra|]. set (pts := p0 :: pts0).
  unfold ols. cbv zeta. set (n := INR (length pts)). set (sx := rs fst pts). set (sy := rs snd pts).
  set (sxx := rs (fun p => fst p ^ 2) pts). set (sxy := rs (fun p => fst p * snd p) pts).
  assert (NP : 0 < n) by (unfold n, pts; apply lt_0_INR; cbn; lia).
  destruct (Req_EM_T (n * sxx - sx ^ 2) 0) as [Z|Z]; cbn [fst snd].
  - set (m := sx / n).
    assert (V : rs (fun p => (- m + 1 * fst p) ^ 2) pts = 0).
    { rewrite (rs_ext _ (fun p => 1 * (1 * fst p ^ 2 + (- 2 * m) * fst p) + 1 * (m ^ 2))) by (intros; ring).
      rewrite (rs_lin (fun p => 1 * fst p ^ 2 + (- 2 * m) * fst p) (fun _ => m ^ 2)).
      rewrite (rs_lin (fun p => fst p ^ 2) fst), rs_const. fold n sxx sx.
      replace (1 * (1 * sxx + -2 * m * sx) + 1 * (m ^ 2 * n)) with ((n * sxx - sx ^ 2) / n) by (unfold m; field; lra). rewrite Z. field. lra. }
    assert (E0 : forall p, In p pts -> fst p = m).
    { intros p P. assert (Y := rs_zero _ pts (fun p => pow2_ge_0 (- m + 1 * fst p)) V p P). cbv beta in Y. nra. }
    assert (SQ : forall l a b, (forall p, In p l -> fst p = m) -> squares l a b = squares l (a + b * m) 0).
    { intros l a b H. induction l as [|p l IH]; [reflexivity|]. rewrite !squares_rs in *.
      change ((snd p - (a + b * fst p)) ^ 2 + rs (fun p => (snd p - (a + b * fst p)) ^ 2) l = (snd p - (a + b * m + 0 * fst p)) ^ 2 + rs (fun p => (snd p - (a + b * m + 0 * fst p)) ^ 2) l).
      rewrite IH by (intros; apply H; right; auto). rewrite (H p (or_introl eq_refl)). ring. }
    rewrite (SQ pts u v E0). set (w := u + v * m). rewrite !squares_rs.
    assert (Q : forall c, rs (fun p => (snd p - (c + 0 * fst p)) ^ 2) pts = rs (fun p => snd p ^ 2) pts - 2 * c * sy + c ^ 2 * n).
    { intros c. rewrite (rs_ext _ (fun p => 1 * (1 * snd p ^ 2 + (- 2 * c) * snd p) + 1 * c ^ 2)) by (intros; ring).
      rewrite (rs_lin (fun p => 1 * snd p ^ 2 + (- 2 * c) * snd p) (fun _ => c ^ 2)), (rs_lin (fun p => snd p ^ 2) snd), rs_const. fold n sy. ring. }
    rewrite !Q. assert (E : sy = sy / n * n) by (field; lra). set (t := sy / n) in *. rewrite E.
    assert (0 <= n * (w - t) ^ 2) by (apply Rmult_le_pos; [lra|apply pow2_ge_0]). nra.
  - set (b := (n * sxy - sx * sy) / (n * sxx - sx ^ 2)). set (a := (sy - b * sx) / n).
    rewrite (squares_split pts a b u v).
    + assert (0 <= rs (fun p => (u - a + (v - b) * fst p) ^ 2) pts) by (apply rs_pos; intros; apply pow2_ge_0). lra.
    + rewrite (rs_ext _ (fun p => 1 * snd p + (-1) * (b * fst p + 1 * a))) by (intros; ring).
      rewrite (rs_lin snd (fun p => b * fst p + 1 * a)), (rs_lin fst (fun _ => a)), rs_const. fold n sx sy. unfold a. field. lra.
    + rewrite (rs_ext _ (fun p => 1 * (fst p * snd p) + (-1) * (a * fst p + b * fst p ^ 2))) by (intros; ring).
      rewrite (rs_lin (fun p => fst p * snd p) (fun p => a * fst p + b * fst p ^ 2)), (rs_lin fst (fun p => fst p ^ 2)). fold n sx sxx sxy.
      unfold a, b. field. split; lra.
Qed.

Lemma pair_eq_dec : forall p q : R * R, {p = q} + {p <> q}.
Proof.
  intros [a b] [c d]. destruct (Req_EM_T a c) as [->|N]; [destruct (Req_EM_T b d) as [->|N]; [left; reflexivity|]|]; right; congruence.
Qed.

Lemma C83_one_aux : forall x y y' gamma, in_range (x, y) -> in_range (x, y') ->
  exists leastsq T0, minimises leastsq /\ fit_temp_dens_relation leastsq [(x, y); (x, y')] = Fit T0 gamma.
Proof.
  intros x y y' gamma I I'. set (l2 := [(x, y); (x, y')]).
  set (t := (y + y') / 2 - (gamma - 1) * x).
  exists (fun pts => if list_eq_dec pair_eq_dec pts l2 then (t, gamma - 1) else ols pts), (Rpower 10 t). split.
  - intros pts a b. destruct (list_eq_dec pair_eq_dec pts l2) as [->|_]; [|apply ols_minimises].
    unfold squares, l2, t. cbn [fold_right fst snd]. set (w := a + b * x). clearbody w.
    assert (0 <= ((y + y') / 2 - w) ^ 2) by apply pow2_ge_0. nra.
  - unfold fit_temp_dens_relation, l2. cbn [filter].
    apply selected_spec in I. apply selected_spec in I'. rewrite I, I'. cbn [length Nat.ltb Nat.leb].
    destruct (list_eq_dec pair_eq_dec [(x, y); (x, y')] [(x, y); (x, y')]) as [_|N]; [|exfalso; apply N; reflexivity]. f_equal. lra.
Qed.

Lemma squares_shift : forall pts k a b, squares (map (fun p => (fst p, snd p + k)) pts) (a + k) b = squares pts a b.
Proof.
  intros pts k a b. induction pts as [|p pts IH]; [reflexivity|]. cbn [map].
  change ((snd p + k - (a + k + b * fst p)) ^ 2 + squares (map (fun p => (fst p, snd p + k)) pts) (a + k) b = (snd p - (a + b * fst p)) ^ 2 + squares pts a b).
  rewrite IH. ring.
Qed.

Lemma C83_heated_aux : forall leastsq pts p q k, minimises leastsq -> 0 < k ->
  (forall r, In r pts -> (in_range r <-> in_range (fst r, snd r + log10 k))) ->
  In p pts -> In q pts -> in_range p -> in_range q -> fst p <> fst q ->
  exists T0 gamma, fit_temp_dens_relation leastsq pts = Fit T0 gamma /\
    fit_temp_dens_relation leastsq (map (fun r => (fst r, snd r + log10 k)) pts) = Fit (k * T0) gamma.
Proof.
  intros leastsq pts p q k M K SAME P Q IP IQ D. set (hot := fun r : R * R => (fst r, snd r + log10 k)).
  assert (F : filter selected (map hot pts) = map hot (filter selected pts)).
  { clear - SAME. induction pts as [|r pts IH]; [reflexivity|]. cbn [map filter].
    assert (E : selected (hot r) = selected r).
    { specialize (SAME r (or_introl eq_refl)). fold (hot r) in SAME. rewrite <- !selected_spec in SAME. destruct (selected r), (selected (hot r)); intuition congruence. }
    rewrite E. rewrite IH by (intros; apply SAME; right; auto). destruct (selected r); reflexivity. }
  assert (PS : In p (filter selected pts)) by (apply filter_In; split; [exact P|apply selected_spec, IP]).
  assert (QS : In q (filter selected pts)) by (apply filter_In; split; [exact Q|apply selected_spec, IQ]).
  destruct (C83_fit_aux leastsq pts _ p q M (proj2 (restricted_filter _ _) eq_refl) PS QS D) as [a [b [B ->]]].
  assert (RH : restricted (map hot pts) (map hot (filter selected pts))) by (apply restricted_filter; exact F).
  destruct (C83_fit_aux leastsq (map hot pts) _ (hot p) (hot q) M RH (in_map hot _ _ PS) (in_map hot _ _ QS) D) as [a' [b' [B' ->]]].
  exists (Rpower 10 a), (b + 1). split; [reflexivity|].
  destruct (best_unique _ a' b' (a + log10 k) b B') as [<- <-].
  - intros u v. unfold hot. rewrite squares_shift. replace u with ((u - log10 k) + log10 k) by ring. rewrite squares_shift.
    destruct (Req_dec (u - log10 k) a) as [->|E]; [destruct (Req_dec v b) as [->|E]; [lra|]|]; left; apply B; congruence.
  - f_equal. rewrite Rpower_plus. rewrite Rmult_comm. f_equal. unfold Rpower, log10.
    assert (0 < ln 10) by (rewrite <- ln_1; apply ln_increasing; lra).
    replace (ln k / ln 10 * ln 10) with (ln k) by (field; lra). apply exp_ln, K.
Qed.
