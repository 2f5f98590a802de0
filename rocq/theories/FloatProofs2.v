(** Proofs for C91 and C92: ranks, monotonicity, lost digits, and the mean flux. *)
From Coq Require Import List Bool ZArith Reals Lra Lia Permutation.
From Flocq Require Import Core.
From Verif Require Import FloatModel FloatSpec FloatProofs.
Import ListNotations.
Local Open Scope R_scope.

(** ** Ranks *)

Lemma all_added_app : forall l l', all_added (l ++ l') = all_added l ++ all_added l'.
Proof. intros. unfold all_added. rewrite map_app, concat_app. reflexivity. Qed.
Lemma segments_app : forall l l', segments (l ++ l') = segments l ++ segments l'.
Proof. intros. unfold segments. rewrite map_app, concat_app. reflexivity. Qed.
Lemma proper_app : forall l l', proper (l ++ l') -> proper l /\ proper l'.
Proof. intros l l' H. unfold proper in H. rewrite all_added_app in H. apply Forall_app in H. exact H. Qed.

Lemma total_perm : forall l l', Permutation l l' -> total l = total l'.
Proof. intros l l' H. unfold total. induction H; cbn; lra. Qed.
Lemma segments_perm : forall l l', Permutation l l' -> Permutation (segments l) (segments l').
Proof. intros l l' H. unfold segments. induction H as [|r l l' H IH|r s l|l l' l'' H IH H' IH']; cbn [map concat]; auto.
  - now apply Permutation_app_head.
  - rewrite !app_assoc. apply Permutation_app_tail. apply Permutation_app_comm.
  - now transitivity (concat (map (fun r => fst r :: snd r) l')).
Qed.
Lemma all_added_perm : forall l l', Permutation l l' -> Permutation (all_added l) (all_added l').
Proof. intros l l' H. unfold all_added. induction H as [|r l l' H IH|r s l|l l' l'' H IH H' IH']; cbn [map concat]; auto.
  - now apply Permutation_app_head.
  - rewrite !app_assoc. apply Permutation_app_tail. apply Permutation_app_comm.
  - now transitivity (concat (map added l')).
Qed.

Definition sent (r : option (list R) * list (option (list R))) : fl := cast Single (snd (rank_sum (fst r) (snd r))).

Lemma tree_near : forall t rs, leaves t = map sent rs -> proper (segments rs) ->
  (1 <= length rs)%nat /\
  near (top Single) Single (length (all_added (segments rs)) + length (segments rs)) (length (segments rs) + length rs - 1) (length (segments rs))
    (total (all_added (segments rs))) (eval Single t).
Proof.
  induction t as [a|l IHl r IHr]; intros rs E F; cbn [leaves eval] in *.
  - destruct rs as [|s [|? ?]]; try discriminate. split; [cbn; lia|]. cbn [map] in E. injection E as ->.
    destruct s as [first rest]. unfold segments in *. cbn [map concat fst snd] in *. rewrite app_nil_r in *.
    destruct (rank_full first rest F) as (w & E & N). unfold sent. cbn [fst snd]. rewrite E. cbn [snd].
    apply near_cast in N; [|lra|now apply total_nonneg]. eapply near_weaken; [| | | |exact N]; cbn [length]; try lia. now apply total_nonneg.
  - destruct (map_eq_app _ _ _ _ (eq_sym E)) as (r1 & r2 & -> & E1 & E2). rewrite segments_app in *. destruct (proper_app _ _ F) as (F1 & F2).
    destruct (IHl r1 (eq_sym E1) F1) as (L1 & N1). destruct (IHr r2 (eq_sym E2) F2) as (L2 & N2).
    rewrite all_added_app, total_app, !app_length. split; [lia|].
    pose proof (near_add (top Single) Single Single _ _ _ _ _ _ _ _ _ _ (Rle_refl _) (or_introl eq_refl) (total_nonneg _ F1) (total_nonneg _ F2) N1 N2) as N.
    cbn [in_double in_single] in N. eapply near_weaken; [| | | |exact N]; try lia. pose proof (total_nonneg _ F1). pose proof (total_nonneg _ F2). lra.
Qed.

Lemma mpi_aux : forall ranks t out, proper (segments ranks) -> compute_mpi ranks t out ->
  let N := length (all_added (segments ranks)) in let n := length (segments ranks) in let r := length ranks in let x := total (all_added (segments ranks)) in
  (1 + unit Double) ^ (N + n) * (1 + unit Single) ^ (n + r) * (x + INR n * tiny_half Single) < top Single ->
  exists v, out = (Single, Fin v) /\ 0 <= v /\
    (1 - unit Double) ^ (N + n) * (1 - unit Single) ^ (n + r) * x - INR n * tiny_half Single <= v <=
    (1 + unit Double) ^ (N + n) * (1 + unit Single) ^ (n + r) * (x + INR n * tiny_half Single).
Proof.
  intros ranks t out F (P & ->) N n r x H. destruct (Permutation_map_inv _ _ P) as (rs & E & Q).
  assert (Q' := segments_perm _ _ Q). assert (Q2 := all_added_perm _ _ Q').
  assert (F' : proper (segments rs)).
  { unfold proper in *. rewrite Forall_forall in *. intros c I. apply F. apply (Permutation_in c (Permutation_sym Q2) I). }
  destruct (tree_near t rs E F') as (L & K). rewrite <- (Permutation_length Q2), <- (Permutation_length Q'), <- (Permutation_length Q), <- (total_perm _ _ Q2) in K.
  fold N n r x in K. apply (near_weaken _ _ _ _ _ (N + n) (n + r) n) in K; try lia; [|apply total_nonneg; exact F].
  destruct (K H) as (y & Ey & Py & _ & A). exists y. rewrite Ey. split; [reflexivity|]. split; [exact Py|exact A].
Qed.

Lemma serial_single_aux : forall first rest, proper (first :: rest) ->
  let N := length (all_added (first :: rest)) in let n := length rest in let x := total (all_added (first :: rest)) in
  (1 + unit Double) ^ (N + n) * (1 + unit Single) ^ n * (x + INR n * tiny_half Single) < top Single ->
  exists v, compute_serial first rest = (match first with Some _ => Double | None => Single end, Fin v) /\ 0 <= v /\
    (1 - unit Double) ^ (N + n) * (1 - unit Single) ^ n * x - INR n * tiny_half Single <= v <=
    (1 + unit Double) ^ (N + n) * (1 + unit Single) ^ n * (x + INR n * tiny_half Single).
Proof.
  intros first rest F N n x H. destruct (rank_full first rest F) as (w & E & K). destruct (K H) as (y & -> & Py & _ & A).
  exists y. unfold compute_serial. rewrite E. split; [destruct first; reflexivity|]. split; [exact Py|exact A].
Qed.

(** ** Monotonicity *)

Definition ordered (p : prec) (a b : fl) : Prop :=
  match a, b with
  | Fin x, Fin y => 0 <= x <= y /\ format p x /\ format p y
  | Fin x, PInf => 0 <= x /\ format p x
  | PInf, PInf => True
  | _, _ => False
  end.

Lemma finite_cases : forall p x, 0 <= x -> finite p x = Fin (rnd p x) \/ (finite p x = PInf /\ bpow radix2 (emax p) <= rnd p x).
Proof.
  intros p x P. unfold finite. pose proof (rnd_nonneg p x P). pose proof (bpow_gt_0 radix2 (emax p)). destruct (Rle_dec _ _); [right; auto|].
  destruct (Rle_dec _ _); [lra|]. now left.
Qed.

Lemma finite_ordered : forall p x y, 0 <= x <= y -> ordered p (finite p x) (finite p y).
Proof.
  intros p x y (P & L). pose proof (rnd_le p x y L). pose proof (rnd_nonneg p x P).
  destruct (finite_cases p x P) as [Ex|(Ex & Hx)]; rewrite Ex; destruct (finite_cases p y ltac:(lra)) as [Ey|(Ey & Hy)]; rewrite Ey; cbn; auto.
  - repeat split; try lra; apply rnd_format.
  - split; [lra|apply rnd_format].
  - unfold finite in Ey. destruct (Rle_dec (bpow radix2 (emax p)) (rnd p y)); [discriminate|lra].
Qed.

Lemma fadd_ordered : forall p a a' b b', ordered p a a' -> ordered p b b' -> ordered p (fadd p a b) (fadd p a' b').
Proof.
  intros p a a' b b' A B.
  destruct a as [x| | |], a' as [x'| | |]; cbn in A; try contradiction; destruct b as [y| | |], b' as [y'| | |]; cbn in B; try contradiction; cbn [fadd]; try exact I.
  - apply finite_ordered. lra.
  - pose proof (finite_ordered p (x + y) (x + y) ltac:(lra)) as K. destruct (finite p (x + y)); cbn in *; tauto.
  - pose proof (finite_ordered p (x + y) (x + y) ltac:(lra)) as K. destruct (finite p (x + y)); cbn in *; tauto.
  - pose proof (finite_ordered p (x + y) (x + y) ltac:(lra)) as K. destruct (finite p (x + y)); cbn in *; tauto.
Qed.

Lemma cast_ordered : forall p q a b, ordered p a b -> ordered q (cast q a) (cast q b).
Proof.
  intros p q a b A. destruct a as [x| | |], b as [y| | |]; cbn in A; try contradiction; cbn [cast]; auto.
  - apply finite_ordered. lra.
  - pose proof (finite_ordered q x x ltac:(lra)) as K. destruct (finite q x); cbn in *; tauto.
Qed.

Lemma more_ordered : forall p a b c, 0 <= c -> ordered p a b -> ordered p a (fadd p b (Fin c)).
Proof.
  intros p a b c C A. destruct a as [x| | |], b as [y| | |]; cbn in A; try contradiction; cbn [fadd]; cbn; auto.
  destruct A as (A & Fx & Fy). pose proof (rnd_le p y (y + c) ltac:(lra)) as L. rewrite (rnd_id p y Fy) in L.
  destruct (finite_cases p (y + c) ltac:(lra)) as [E|(E & H)]; rewrite E; cbn; repeat split; try lra; auto. apply rnd_format.
Qed.

(** A single contribution need not be a number of the format. *)
Lemma add_ordered : forall p a b c c', 0 <= c <= c' -> ordered p a b -> ordered p (fadd p a (Fin c)) (fadd p b (Fin c')).
Proof.
  intros p a b c c' C A. destruct a as [x| | |], b as [y| | |]; cbn in A; try contradiction; cbn [fadd]; auto.
  - apply finite_ordered. lra.
  - pose proof (finite_ordered p (x + c) (x + c) ltac:(lra)) as K. destruct (finite p (x + c)); cbn in *; tauto.
Qed.

Lemma particle_ordered : forall cs cs', raised cs cs' -> Forall (fun c => 0 <= c) cs -> ordered Double (particle_sum cs) (particle_sum cs').
Proof.
  intros cs cs' H F. unfold particle_sum.
  assert (G : forall a b, ordered Double a b -> ordered Double (fold_left (fun acc c => fadd Double acc (Fin c)) cs a) (fold_left (fun acc c => fadd Double acc (Fin c)) cs' b)).
  { induction H as [|c c' l l' L H IH|c l l' C H IH]; intros a b O; cbn [fold_left]; [exact O| |].
    - inversion F as [|? ? Fc F']; subst. apply IH; [exact F'|]. apply add_ordered; [lra|exact O].
    - apply IH; [exact F|]. now apply more_ordered. }
  apply G. cbn. repeat split; try lra; apply format_0.
Qed.

Lemma segment_ordered : forall s s', raised_segment s s' -> Forall (fun c => 0 <= c) (added s) ->
  fst (interpolate_segment s) = fst (interpolate_segment s') /\ ordered (fst (interpolate_segment s)) (snd (interpolate_segment s)) (snd (interpolate_segment s')).
Proof.
  intros [cs|] [cs'|] H F; cbn in H; try contradiction; cbn [interpolate_segment fst snd]; (split; [reflexivity|]).
  - now apply particle_ordered.
  - cbn. repeat split; try lra; apply format_0.
Qed.

Lemma ordered_double : forall a b, ordered Single a b -> ordered Double a b.
Proof. intros [x| | |] [y| | |]; cbn; intuition; now apply single_double. Qed.

Lemma serial_ordered_aux : forall first first' rest rest', Forall (fun c => 0 <= c) (all_added (first :: rest)) ->
  raised_segment first first' -> Forall2 raised_segment rest rest' ->
  fst (compute_serial first rest) = fst (compute_serial first' rest') /\ not_above (snd (compute_serial first rest)) (snd (compute_serial first' rest')).
Proof.
  intros first first' rest rest' F H1 H2. unfold compute_serial, rank_sum. unfold all_added in F. cbn [map concat] in F. apply Forall_app in F as (F1 & F2).
  destruct (segment_ordered _ _ H1 F1) as (E & O). destruct (interpolate_segment first) as [p a], (interpolate_segment first') as [p' a']. cbn [fst snd] in *. subst p'. clear F1 H1 first first'.
  assert (G : exists b b', fold_left accumulate (map interpolate_segment rest) (p, a) = (p, b) /\ fold_left accumulate (map interpolate_segment rest') (p, a') = (p, b') /\ ordered p b b').
  { revert a a' O. induction H2 as [|s s' rest rest' Hs H2 IH]; intros a a' O; [exists a, a'; auto|]. cbn [map concat] in F2. apply Forall_app in F2 as (Fs & F2).
    destruct (segment_ordered _ _ Hs Fs) as (Es & Os). cbn [map fold_left]. unfold accumulate at 2 4. cbn [fst snd].
    destruct (interpolate_segment s) as [q x], (interpolate_segment s') as [q' x']. cbn [fst snd] in *. subst q'.
    destruct p, q; apply (IH F2).
    - now apply fadd_ordered.
    - apply (cast_ordered Double). apply fadd_ordered; [now apply ordered_double|exact Os].
    - apply fadd_ordered; [exact O|now apply ordered_double].
    - now apply fadd_ordered. }
  destruct G as (b & b' & -> & -> & Ob). cbn [fst snd]. split; [reflexivity|]. destruct b, b'; cbn in *; tauto.
Qed.

(** ** Lost digits *)

Lemma rnd_at : forall p x e, (emin p + bits p <= e)%Z -> bpow radix2 (e - 1) <= Rabs x < bpow radix2 e ->
  rnd p x = IZR (ZnearestE (x * bpow radix2 (- (e - bits p)))) * bpow radix2 (e - bits p).
Proof.
  intros p x e E H. unfold rnd, round, F2R, scaled_mantissa, cexp. rewrite (mag_unique radix2 x e H). unfold FLT_exp. cbn [Fnum Fexp].
  replace (Z.max (e - bits p) (emin p)) with (e - bits p)%Z by lia. reflexivity.
Qed.

Lemma tie_even : forall n, Z.even n = true -> ZnearestE (IZR n + / 2) = n.
Proof.
  intros n E. unfold Znearest. assert (Zfloor (IZR n + / 2) = n) as ->. { apply Zfloor_imp. rewrite plus_IZR. lra. }
  rewrite Rcompare_Eq by lra. rewrite E. reflexivity.
Qed.

Definition u53 : R := bpow radix2 (-53).

Lemma u53_unit : unit Double = u53.
Proof. apply unit_bpow. Qed.

Lemma float_1 : forall p, format p 1.
Proof. intros p. apply format_is_float. exists 1%Z, 0%Z. split; [cbn; ring|destruct p; cbn; lia]. Qed.
Lemma float_u : format Double u53.
Proof. apply format_is_float. exists 1%Z, (-53)%Z. split; [rewrite powerRZ_bpow; unfold u53; ring|cbn; lia]. Qed.
Lemma float_2u : format Double (u53 + u53).
Proof. apply format_is_float. exists 1%Z, (-52)%Z. split; [rewrite powerRZ_bpow; unfold u53; change (-52)%Z with (1 + -53)%Z; rewrite bpow_plus; change (bpow radix2 1) with 2; ring|cbn; lia]. Qed.
Lemma bpow_52_53 : bpow radix2 52 * u53 = / 2.
Proof. unfold u53. rewrite <- bpow_plus. reflexivity. Qed.
Lemma bpow_52_m52 : bpow radix2 52 * bpow radix2 (-52) = 1.
Proof. rewrite <- bpow_plus. reflexivity. Qed.
Lemma float_12u : format Double (1 + (u53 + u53)).
Proof.
  apply format_is_float. exists 4503599627370497%Z, (-52)%Z. split; [|cbn; lia]. rewrite powerRZ_bpow.
  replace (u53 + u53) with (bpow radix2 (-52)) by (unfold u53; change (-52)%Z with (1 + -53)%Z; rewrite bpow_plus; change (bpow radix2 1) with 2; ring).
  replace 4503599627370497%Z with (2 ^ 52 + 1)%Z by reflexivity. rewrite plus_IZR. change (IZR (2 ^ 52)) with (bpow radix2 52).
  pose proof bpow_52_m52. lra.
Qed.
Lemma u53_small : 0 < u53 < / 8.
Proof. unfold u53. split; [apply bpow_gt_0|]. change (/ 8) with (bpow radix2 (-3)). apply bpow_lt. lia. Qed.

Lemma finite_small : forall p x, 0 <= x -> rnd p x <= 4 -> finite p x = Fin (rnd p x).
Proof.
  intros p x P L. apply finite_fin; [exact P|]. rewrite top_bpow. eapply Rle_lt_trans; [exact L|]. change 4 with (bpow radix2 2). apply bpow_lt. destruct p; reflexivity.
Qed.
Lemma finite_exact : forall p x, 0 <= x <= 4 -> format p x -> finite p x = Fin x.
Proof. intros p x P F. rewrite finite_small; rewrite ?(rnd_id p x F); [reflexivity|lra|lra]. Qed.

Lemma rnd_1u : rnd Double (1 + u53) = 1.
Proof.
  pose proof u53_small. rewrite (rnd_at Double (1 + u53) 1); [|cbn; lia|].
  - change (- (1 - bits Double))%Z with 52%Z. change (1 - bits Double)%Z with (-52)%Z. rewrite Rmult_plus_distr_r, Rmult_1_l, (Rmult_comm u53), bpow_52_53.
    change (bpow radix2 52) with (IZR 4503599627370496). rewrite tie_even by reflexivity. change (IZR 4503599627370496) with (bpow radix2 52). apply bpow_52_m52.
  - rewrite Rabs_pos_eq by lra. change (bpow radix2 (1 - 1)) with 1. change (bpow radix2 1) with 2. lra.
Qed.

Lemma order_aux : particle_sum [1; u53; u53] = Fin 1 /\ particle_sum [u53; u53; 1] = Fin (1 + (u53 + u53)).
Proof.
  pose proof u53_small. unfold particle_sum. cbn [fold_left fadd]. split.
  - rewrite Rplus_0_l, (finite_exact Double 1) by (try lra; apply float_1). cbn [fadd].
    rewrite (finite_small Double (1 + u53)) by (rewrite ?rnd_1u; lra). rewrite rnd_1u. cbn [fadd].
    rewrite (finite_small Double (1 + u53)) by (rewrite ?rnd_1u; lra). now rewrite rnd_1u.
  - rewrite Rplus_0_l, (finite_exact Double u53) by (try lra; apply float_u). cbn [fadd].
    rewrite (finite_exact Double (u53 + u53)) by (try lra; apply float_2u). cbn [fadd]. rewrite (Rplus_comm _ 1).
    rewrite (finite_exact Double) by (try lra; apply float_12u). reflexivity.
Qed.

Lemma split_refuted_aux : exists cs, Forall (fun c => 0 <= c /\ is_float Double c) cs /\ exists a b c,
  cs = a :: b :: c :: nil /\ snd (compute_serial (Some [a; b]) [Some [c]]) <> snd (compute_serial (Some [a]) [Some [b; c]]) /\
  snd (compute_serial (Some [a; b; c]) []) <> snd (compute_serial (Some [c; b; a]) []).
Proof.
  pose proof u53_small as U. exists [1; u53; u53]. split.
  { constructor; [split; [lra|apply format_is_float, float_1]|]. constructor; [split; [lra|apply format_is_float, float_u]|]. constructor; [split; [lra|apply format_is_float, float_u]|constructor]. }
  exists 1, u53, u53. split; [reflexivity|]. split.
  - unfold compute_serial, rank_sum. cbn [map fold_left interpolate_segment]. unfold accumulate. cbn [fst snd]. unfold particle_sum. cbn [fold_left fadd].
    rewrite !Rplus_0_l, (finite_exact Double 1), (finite_exact Double u53) by (try lra; try apply float_1; apply float_u). cbn [fadd].
    rewrite (finite_small Double (1 + u53)) by (rewrite ?rnd_1u; lra). rewrite rnd_1u.
    rewrite (finite_exact Double (u53 + u53)) by (try lra; apply float_2u). cbn [fadd].
    rewrite (finite_small Double (1 + u53)) by (rewrite ?rnd_1u; lra). rewrite rnd_1u.
    rewrite (finite_exact Double) by (try lra; apply float_12u). intros E. injection E as E. lra.
  - destruct order_aux as (E1 & E2). unfold compute_serial, rank_sum. cbn [map fold_left interpolate_segment snd]. rewrite E1, E2. intros E. injection E as E. lra.
Qed.

Lemma rnd_single_12u : rnd Single (1 + (u53 + u53)) = 1.
Proof.
  pose proof u53_small. assert (bpow radix2 23 * (u53 + u53) < / 4).
  { unfold u53. rewrite Rmult_plus_distr_l, <- !bpow_plus. change (23 + -53)%Z with (-30)%Z. assert (bpow radix2 (-30) < bpow radix2 (-3)) by (apply bpow_lt; lia). change (bpow radix2 (-3)) with (/ 8) in *. lra. }
  pose proof (bpow_gt_0 radix2 23). rewrite (rnd_at Single _ 1); [|cbn; lia|].
  - change (- (1 - bits Single))%Z with 23%Z. change (1 - bits Single)%Z with (-23)%Z.
    rewrite (Znearest_imp _ _ (2 ^ 23)).
    + change (IZR (2 ^ 23)) with (bpow radix2 23). rewrite <- bpow_plus. reflexivity.
    + change (IZR (2 ^ 23)) with (bpow radix2 23). rewrite Rabs_pos_eq; nra.
  - rewrite Rabs_pos_eq by lra. change (bpow radix2 (1 - 1)) with 1. change (bpow radix2 1) with 2. lra.
Qed.

Lemma rnd_vanish : rnd Single (bpow radix2 (-200)) = 0.
Proof.
  unfold rnd. apply round_N_small with (ex := (-199)%Z).
  - rewrite Rabs_pos_eq by apply bpow_ge_0. split; [apply bpow_le; lia|apply bpow_lt; lia].
  - reflexivity.
Qed.

Lemma type_refuted_aux : exists x y, 0 <= x /\ is_float Double x /\ 0 < y /\ is_float Double y /\
  compute_serial None [Some [x]] = (Single, Fin 1) /\ compute_serial (Some [x]) [None] = (Double, Fin x) /\ x <> 1 /\
  compute_serial None [Some [y]] = (Single, Fin 0) /\ compute_serial (Some [y]) [None] = (Double, Fin y).
Proof.
  pose proof u53_small as U. exists (1 + (u53 + u53)), (bpow radix2 (-200)).
  assert (Fy : format Double (bpow radix2 (-200))) by (apply format_is_float; exists 1%Z, (-200)%Z; split; [rewrite powerRZ_bpow; ring|cbn; lia]).
  assert (Py : 0 < bpow radix2 (-200) <= 1) by (split; [apply bpow_gt_0|change 1 with (bpow radix2 0); apply bpow_le; lia]).
  assert (G : forall x, 0 <= x <= 2 -> format Double x -> rnd Single x <= 4 ->
    compute_serial None [Some [x]] = (Single, Fin (rnd Single x)) /\ compute_serial (Some [x]) [None] = (Double, Fin x)).
  { intros x X F L. unfold compute_serial, rank_sum, particle_sum. cbn [map fold_left interpolate_segment]. unfold particle_sum, accumulate. cbn [fst snd fold_left fadd].
    rewrite Rplus_0_l, (finite_exact Double x) by (try lra; exact F). cbn [fadd]. rewrite Rplus_0_l, Rplus_0_r, (finite_exact Double x) by (try lra; exact F). cbn [cast].
    rewrite finite_small by lra. auto. }
  destruct (G (1 + (u53 + u53))) as (A & B); [lra|apply float_12u|rewrite rnd_single_12u; lra|]. rewrite rnd_single_12u in A.
  destruct (G (bpow radix2 (-200))) as (C & D); [lra|exact Fy|rewrite rnd_vanish; lra|]. rewrite rnd_vanish in C.
  split; [lra|]. split; [apply format_is_float, float_12u|]. split; [lra|]. split; [now apply format_is_float|]. repeat split; auto. lra.
Qed.

(** ** Sums that are bounded by integers *)

Lemma format_int : forall p n e, (0 <= e)%Z -> IZR (Z.of_nat n) <= bpow radix2 (bits p) -> format p (IZR (Z.of_nat n) * bpow radix2 e).
Proof.
  intros p n e E H. assert (K : (Z.of_nat n <= match p with Single => 16777216 | Double => 9007199254740992 end)%Z) by (apply le_IZR; destruct p; exact H).
  apply format_is_float. destruct (Z.eq_dec (Z.of_nat n) (match p with Single => 16777216 | Double => 9007199254740992 end)%Z) as [Q|Q].
  - exists 1%Z, (e + bits p)%Z. rewrite Q, powerRZ_bpow, bpow_plus. split; [destruct p; cbn [bits]; [change (bpow radix2 24) with 16777216|change (bpow radix2 53) with 9007199254740992]; ring|].
    destruct p; cbn; lia.
  - exists (Z.of_nat n), e. rewrite powerRZ_bpow. split; [reflexivity|]. destruct p; lia.
Qed.

Definition wsum (l : list (fl * nat)) : nat := fold_right (fun w a => (snd w + a)%nat) 0%nat l.
Lemma wsum_app : forall l l', wsum (l ++ l') = (wsum l + wsum l')%nat.
Proof. intros l l'. unfold wsum. induction l as [|w l IH]; cbn; [reflexivity|]. rewrite IH. lia. Qed.
Lemma wsum_perm : forall l l', Permutation l l' -> wsum l = wsum l'.
Proof. intros l l' H. unfold wsum. induction H; cbn; lia. Qed.

Definition below (p : prec) (e : Z) (w : fl * nat) : Prop :=
  exists x, fst w = Fin x /\ format p x /\ 0 <= x <= IZR (Z.of_nat (snd w)) * bpow radix2 e.

Lemma eval_count : forall p e, (0 <= e)%Z -> (e + bits p < emax p)%Z -> forall t ws, leaves t = map fst ws -> Forall (below p e) ws ->
  IZR (Z.of_nat (wsum ws)) <= bpow radix2 (bits p) ->
  exists s, eval p t = Fin s /\ format p s /\ 0 <= s <= IZR (Z.of_nat (wsum ws)) * bpow radix2 e.
Proof.
  intros p e E M. induction t as [a|l IHl r IHr]; intros ws L F B; cbn [leaves eval] in *.
  - destruct ws as [|w [|? ?]]; try discriminate. cbn [map] in L. injection L as ->. inversion F as [|? ? (x & Ex & Fx & Hx) _]; subst.
    exists x. cbn [wsum fold_right] in *. rewrite Nat.add_0_r. auto.
  - destruct (map_eq_app _ _ _ _ (eq_sym L)) as (w1 & w2 & -> & E1 & E2). apply Forall_app in F as (F1 & F2).
    rewrite wsum_app, Nat2Z.inj_add, plus_IZR in *. pose proof (IZR_le 0 _ (Nat2Z.is_nonneg (wsum w1))). pose proof (IZR_le 0 _ (Nat2Z.is_nonneg (wsum w2))).
    destruct (IHl w1 (eq_sym E1) F1 ltac:(lra)) as (x & -> & Fx & Hx). destruct (IHr w2 (eq_sym E2) F2 ltac:(lra)) as (y & -> & Fy & Hy).
    pose proof (format_int p (wsum w1 + wsum w2) e E) as Fn. rewrite Nat2Z.inj_add, plus_IZR in Fn. specialize (Fn B).
    assert (U : x + y <= (IZR (Z.of_nat (wsum w1)) + IZR (Z.of_nat (wsum w2))) * bpow radix2 e) by (rewrite Rmult_plus_distr_r; lra). apply (rnd_le p) in U.
    rewrite (rnd_id p _ Fn) in U. cbn [fadd]. exists (rnd p (x + y)). split; [|split; [apply rnd_format|]].
    + apply finite_fin; [lra|]. eapply Rle_lt_trans; [exact U|]. rewrite top_bpow. pose proof (bpow_gt_0 radix2 e).
      apply Rle_lt_trans with (bpow radix2 (bits p) * bpow radix2 e); [apply Rmult_le_compat_r; lra|]. rewrite <- bpow_plus. apply bpow_lt. lia.
    + split; [apply rnd_nonneg; lra|exact U].
Qed.

(** ** The mean flux *)

Lemma leaves_pos : forall t, (1 <= length (leaves t))%nat.
Proof. induction t; cbn [leaves]; rewrite ?app_length; cbn; lia. Qed.

Lemma count_range : forall p t, Forall (in_unit p) (leaves t) -> INR (length (leaves t)) <= bpow radix2 (bits p) ->
  exists s, eval p t = Fin s /\ format p s /\ 0 <= s <= INR (length (leaves t)).
Proof.
  intros p t F B. rewrite INR_IZR_INZ in *. set (ws := map (fun a => (a, 1%nat)) (leaves t)).
  assert (W : wsum ws = length (leaves t)). { unfold ws, wsum. clear. induction (leaves t) as [|a l IH]; cbn; [reflexivity|]. now rewrite IH. }
  destruct (eval_count p 0 ltac:(lia) ltac:(destruct p; cbn; lia) t ws) as (s & E & Fs & Hs).
  - unfold ws. rewrite map_map. cbn. now rewrite map_id.
  - unfold ws. rewrite Forall_map. eapply Forall_impl; [|exact F]. intros a (x & -> & Fx & Hx). exists x. cbn. repeat split; try lra. now apply format_is_float.
  - rewrite W. exact B.
  - rewrite W in Hs. change (bpow radix2 0) with 1 in Hs. rewrite Rmult_1_r in Hs. eauto.
Qed.

Lemma two_bits : forall p, bpow radix2 (bits p) = / unit p.
Proof. intros p. rewrite unit_bpow, <- bpow_opp. f_equal. lia. Qed.

Lemma mean_range_aux : forall p t, Forall (in_unit p) (leaves t) -> INR (length (leaves t)) <= / unit p ->
  exists v, mean_of p t = Fin v /\ 0 <= v <= 1.
Proof.
  intros p t F B. rewrite <- two_bits in B. destruct (count_range p t F B) as (s & E & _ & Hs). unfold mean_of. rewrite E.
  pose proof (lt_0_INR _ (leaves_pos t)) as Pn. assert (0 <= s / INR (length (leaves t)) <= 1).
  { split; [apply Rmult_le_pos; [lra|left; now apply Rinv_0_lt_compat]|]. apply (Rmult_le_reg_r (INR (length (leaves t)))); [exact Pn|]. unfold Rdiv. rewrite Rmult_assoc, Rinv_l; lra. }
  pose proof (rnd_le p _ 1 (proj2 H)) as U. rewrite (rnd_id p 1 (float_1 p)) in U. pose proof (rnd_nonneg p _ (proj1 H)).
  rewrite finite_small by lra. eauto.
Qed.

Lemma ones_exact : forall p t, Forall (eq (Fin 1)) (leaves t) -> INR (length (leaves t)) <= bpow radix2 (bits p) -> eval p t = Fin (INR (length (leaves t))).
Proof.
  intros p. induction t as [a|l IHl r IHr]; intros F B; cbn [leaves eval] in *.
  - inversion F; subst. reflexivity.
  - apply Forall_app in F as (F1 & F2). rewrite app_length, plus_INR in *. pose proof (pos_INR (length (leaves l))). pose proof (pos_INR (length (leaves r))).
    rewrite IHl, IHr by (auto; lra). cbn [fadd]. pose proof (format_int p (length (leaves l) + length (leaves r)) 0 ltac:(lia)) as Fn.
    rewrite <- INR_IZR_INZ, plus_INR in Fn. change (bpow radix2 0) with 1 in Fn. rewrite Rmult_1_r in Fn. specialize (Fn B).
    rewrite finite_fin; rewrite ?(rnd_id p _ Fn); auto; try lra. rewrite top_bpow. eapply Rle_lt_trans; [exact B|]. apply bpow_lt. destruct p; reflexivity.
Qed.

Lemma mean_ones_aux : forall p t, Forall (eq (Fin 1)) (leaves t) -> INR (length (leaves t)) <= / unit p -> mean_of p t = Fin 1.
Proof.
  intros p t F B. rewrite <- two_bits in B. unfold mean_of. rewrite (ones_exact p t F B). pose proof (lt_0_INR _ (leaves_pos t)).
  unfold Rdiv. rewrite Rinv_r by lra. apply finite_exact; [lra|apply float_1].
Qed.

Lemma eval_error : forall p t, Forall (in_unit p) (leaves t) -> INR (length (leaves t)) <= bpow radix2 (bits p) ->
  exists s, eval p t = Fin s /\ format p s /\ 0 <= s /\
    (1 - unit p) ^ (length (leaves t) - 1) * total (map value (leaves t)) <= s <= (1 + unit p) ^ (length (leaves t) - 1) * total (map value (leaves t)).
Proof.
  intros p. induction t as [a|l IHl r IHr]; intros F B.
  - cbn [leaves eval] in *. inversion F as [|? ? (x & -> & Fx & Hx) _]; subst. exists x. split; [reflexivity|]. split; [now apply format_is_float|]. cbn. lra.
  - destruct (count_range p (Node l r) F B) as (s & Es & Fs & Hs). cbn [leaves eval] in *. apply Forall_app in F as (F1 & F2). rewrite map_app, total_app, app_length, plus_INR in *.
    pose proof (pos_INR (length (leaves l))). pose proof (pos_INR (length (leaves r))).
    destruct (IHl F1 ltac:(lra)) as (x & Ex & Fx & Px & Lx & Ux). destruct (IHr F2 ltac:(lra)) as (y & Ey & Fy & Py & Ly & Uy).
    rewrite Ex, Ey in *. cbn [fadd] in *. pose proof (rnd_sum p x y Fx Fy Px Py) as Q.
    destruct (finite_cases p (x + y) ltac:(lra)) as [E|(E & _)]; rewrite E in Es; [|discriminate]. injection Es as <-. exists (rnd p (x + y)). rewrite E. split; [reflexivity|]. split; [exact Fs|]. split; [lra|].
    assert (Tn : forall l, Forall (in_unit p) l -> 0 <= total (map value l)).
    { clear. intros l F. unfold total. induction F as [|a l (x & -> & _ & Hx) F IH]; cbn; lra. }
    pose proof (Tn _ F1). pose proof (Tn _ F2). pose proof (leaves_pos l). pose proof (leaves_pos r). pose proof (unit_pos p) as Up.
    set (a := (length (leaves l) - 1)%nat) in *. set (b := (length (leaves r) - 1)%nat) in *.
    replace (length (leaves l) + length (leaves r) - 1)%nat with (S (a + b)) by lia. cbn [pow].
    pose proof (pow_between (1 - unit p) a ltac:(lra)) as PA. pose proof (pow_between (1 - unit p) b ltac:(lra)) as PB.
    pose proof (pow_R1_Rle (1 + unit p) a ltac:(lra)) as QA. pose proof (pow_R1_Rle (1 + unit p) b ltac:(lra)) as QB. rewrite !pow_add.
    set (X := total (map value (leaves l))) in *. set (Y := total (map value (leaves r))) in *. split.
    + apply Rle_trans with ((1 - unit p) * (x + y)); [|apply Q]. rewrite Rmult_assoc. apply Rmult_le_compat_l; [lra|].
      assert ((1 - unit p) ^ a * (1 - unit p) ^ b * X <= (1 - unit p) ^ a * X) by (apply Rmult_le_compat_r; nra).
      assert ((1 - unit p) ^ a * (1 - unit p) ^ b * Y <= (1 - unit p) ^ b * Y) by (apply Rmult_le_compat_r; nra). lra.
    + apply Rle_trans with ((1 + unit p) * (x + y)); [apply Q|]. rewrite Rmult_assoc. apply Rmult_le_compat_l; [lra|].
      assert ((1 + unit p) ^ a * X <= (1 + unit p) ^ a * (1 + unit p) ^ b * X) by (apply Rmult_le_compat_r; nra).
      assert ((1 + unit p) ^ b * Y <= (1 + unit p) ^ a * (1 + unit p) ^ b * Y) by (apply Rmult_le_compat_r; nra). lra.
Qed.

Lemma mean_error_aux : forall p t, Forall (in_unit p) (leaves t) -> INR (length (leaves t)) <= / unit p ->
  let n := length (leaves t) in let mean := total (map value (leaves t)) / INR n in
  exists v, mean_of p t = Fin v /\ (1 - unit p) ^ n * mean - tiny_half p <= v <= (1 + unit p) ^ n * mean + tiny_half p.
Proof.
  intros p t F B n mean. destruct (mean_range_aux p t F B) as (v & Ev & Hv). exists v. split; [exact Ev|]. rewrite <- two_bits in B.
  destruct (eval_error p t F B) as (s & Es & _ & Ps & Ls & Us). unfold mean_of in Ev. rewrite Es in Ev. fold n in Ev, Ls, Us.
  pose proof (lt_0_INR _ (leaves_pos t)) as Pn. fold n in Pn. assert (Pi : 0 < / INR n) by now apply Rinv_0_lt_compat.
  assert (Pq : 0 <= s / INR n) by (apply Rmult_le_pos; lra).
  destruct (finite_cases p (s / INR n) Pq) as [E|(E & _)]; rewrite E in Ev; [|discriminate]. injection Ev as <-.
  pose proof (rnd_any p _ Pq) as (A & C). pose proof (unit_pos p) as Up. pose proof (leaves_pos t) as Ln. fold n in Ln.
  assert (PW : forall x, x ^ n = x * x ^ (n - 1)) by (intros x; destruct n as [|k]; [lia|]; cbn [pow]; now rewrite Nat.sub_succ, Nat.sub_0_r).
  rewrite !PW. unfold mean, Rdiv in *.
  assert ((1 - unit p) ^ (n - 1) * total (map value (leaves t)) * / INR n <= s * / INR n) by (apply Rmult_le_compat_r; lra).
  assert (s * / INR n <= (1 + unit p) ^ (n - 1) * total (map value (leaves t)) * / INR n) by (apply Rmult_le_compat_r; lra).
  split.
  - eapply Rle_trans; [|exact A]. apply Rplus_le_compat_r. rewrite Rmult_assoc. apply Rmult_le_compat_l; lra.
  - eapply Rle_trans; [exact C|]. apply Rplus_le_compat_r. rewrite Rmult_assoc. apply Rmult_le_compat_l; lra.
Qed.

(** Too many pixels in single precision. *)
Fixpoint full (k : nat) : tree := match k with O => Leaf (Fin 1) | S k' => Node (full k') (full k') end.
Lemma full_leaves : forall k, length (leaves (full k)) = (2 ^ k)%nat /\ Forall (eq (Fin 1)) (leaves (full k)).
Proof.
  induction k as [|k (L & F)]; cbn [full leaves]; [cbn; auto|]. rewrite app_length, L. split; [cbn; lia|]. apply Forall_app. auto.
Qed.
Lemma format_bpow : forall p e, (emin p <= e)%Z -> format p (bpow radix2 e).
Proof. intros p e E. apply format_is_float. exists 1%Z, e. rewrite powerRZ_bpow. split; [ring|]. destruct p; cbn in *; lia. Qed.
Lemma full_eval : forall k, (k < 100)%nat -> eval Single (full k) = Fin (bpow radix2 (Z.of_nat k)).
Proof.
  induction k as [|k IH]; intros K; [reflexivity|]. cbn [full eval]. rewrite IH by lia. cbn [fadd].
  replace (bpow radix2 (Z.of_nat k) + bpow radix2 (Z.of_nat k)) with (bpow radix2 (Z.of_nat (S k))) by (rewrite Nat2Z.inj_succ; unfold Z.succ; rewrite bpow_plus; change (bpow radix2 1) with 2; ring).
  pose proof (format_bpow Single (Z.of_nat (S k)) ltac:(cbn; lia)) as F. rewrite finite_fin; rewrite ?(rnd_id _ _ F); auto; [apply bpow_ge_0|].
  rewrite top_bpow. apply bpow_lt. cbn [emax]. lia.
Qed.

Definition three : tree := Node (Node (Leaf (Fin 1)) (Leaf (Fin 1))) (Leaf (Fin 1)).
Lemma three_eval : eval Single three = Fin 3.
Proof.
  rewrite (ones_exact Single three); [cbn; f_equal; ring|repeat constructor|]. cbn. lra.
Qed.

Fixpoint comb (base : tree) (j : nat) : tree := match j with O => base | S j' => Node (comb base j') three end.
Lemma comb_leaves : forall b j, Forall (eq (Fin 1)) (leaves b) ->
  (length (leaves (comb b j)) = length (leaves b) + 3 * j)%nat /\ Forall (eq (Fin 1)) (leaves (comb b j)).
Proof.
  intros b j Fb. induction j as [|j (L & F)]; cbn [comb]; [split; [lia|exact Fb]|].
  cbn [leaves]. rewrite app_length, L. split; [cbn [three leaves app length]; lia|]. apply Forall_app. split; [exact F|repeat constructor].
Qed.

Lemma rnd_four : forall j, (0 <= j < 8388608)%Z -> rnd Single (33554432 + 4 * IZR j + 3) = 33554432 + 4 * IZR (j + 1).
Proof.
  intros j J. assert (J' : 0 <= IZR j <= 8388607) by (split; apply IZR_le; lia). rewrite (rnd_at Single _ 26); [|cbn; lia|].
  - change (- (26 - bits Single))%Z with (-2)%Z. change (26 - bits Single)%Z with 2%Z. change (bpow radix2 (-2)) with (/ 4). change (bpow radix2 2) with 4.
    rewrite (Znearest_imp _ _ (8388608 + (j + 1))); [rewrite !plus_IZR; lra|]. rewrite !plus_IZR. apply Rabs_def1; lra.
  - rewrite Rabs_pos_eq by lra. change (bpow radix2 (26 - 1)) with 33554432. change (bpow radix2 26) with 67108864. lra.
Qed.

Lemma comb_eval : forall b j, eval Single b = Fin 33554432 -> (Z.of_nat j <= 8388608)%Z -> eval Single (comb b j) = Fin (33554432 + 4 * IZR (Z.of_nat j)).
Proof.
  intros b j Eb. induction j as [|j IH]; intros J.
  - cbn [comb]. rewrite Eb. f_equal. change (IZR (Z.of_nat 0)) with 0. ring.
  - cbn [comb eval]. rewrite IH, three_eval by lia. cbn [fadd]. rewrite finite_fin; rewrite ?rnd_four by lia.
    + rewrite Nat2Z.inj_succ. reflexivity.
    + pose proof (IZR_le 0 _ (Nat2Z.is_nonneg j)). lra.
    + rewrite top_bpow. assert (IZR (Z.of_nat j + 1) <= 8388608) by (apply IZR_le; lia). assert (bpow radix2 27 <= bpow radix2 (emax Single)) by (apply bpow_le; cbn; lia).
      change (bpow radix2 27) with 134217728 in *. lra.
Qed.

Lemma mean_many_aux : exists t, Forall (eq (Fin 1)) (leaves t) /\ exists v, mean_of Single t = Fin v /\ 1 < v.
Proof.
  assert (B : exists b, eval Single b = Fin 33554432 /\ Z.of_nat (length (leaves b)) = 33554432%Z /\ Forall (eq (Fin 1)) (leaves b)).
  { exists (full 25). rewrite full_eval by lia. destruct (full_leaves 25) as (L & F). rewrite L, Nat2Z.inj_pow. split; [reflexivity|]. split; [reflexivity|exact F]. }
  destruct B as (b & Eb & Lb & Fb). assert (J : exists j, Z.of_nat j = 8388608%Z) by (exists (Z.to_nat 8388608); apply Z2Nat.id; lia). destruct J as (j & Ej).
  exists (comb b j). destruct (comb_leaves b j Fb) as (L & F). split; [exact F|].
  unfold mean_of. rewrite (comb_eval b j Eb) by lia. rewrite Ej.
  assert (E : INR (length (leaves (comb b j))) = 58720256).
  { rewrite INR_IZR_INZ, L, Nat2Z.inj_add, Nat2Z.inj_mul, Lb, Ej. reflexivity. }
  rewrite E. replace ((33554432 + 4 * 8388608) / 58720256) with (8 / 7) by lra.
  assert (F98 : format Single (9 / 8)). { apply format_is_float. exists 9%Z, (-3)%Z. split; [rewrite powerRZ_bpow; change (bpow radix2 (-3)) with (/ 8); lra|cbn; lia]. }
  assert (F2 : format Single 2). { apply format_is_float. exists 2%Z, 0%Z. split; [cbn; lra|cbn; lia]. }
  pose proof (rnd_le Single (9 / 8) (8 / 7) ltac:(lra)) as A. rewrite (rnd_id _ _ F98) in A.
  pose proof (rnd_le Single (8 / 7) 2 ltac:(lra)) as C. rewrite (rnd_id _ _ F2) in C.
  rewrite finite_small by lra. eexists; split; [reflexivity|lra].
Qed.
