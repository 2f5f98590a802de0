(** Proofs for C91: rounding of sums. *)
From Coq Require Import List Bool ZArith Reals Lra Lia Permutation.
From Flocq Require Import Core Plus_error Relative.
From Verif Require Import FloatModel FloatSpec.
Import ListNotations.
Local Open Scope R_scope.

Definition format (p : prec) (x : R) : Prop := generic_format radix2 (FLT_exp (emin p) (bits p)) x.

Global Instance bits_pos : forall p, Prec_gt_0 (bits p).
Proof. intros [|]; reflexivity. Qed.

Lemma powerRZ_bpow : forall e, powerRZ 2 e = bpow radix2 e.
Proof.
  intros e. rewrite bpow_powerRZ. reflexivity.
Qed.

Lemma format_is_float : forall p x, is_float p x <-> format p x.
Proof.
  intros p x. split.
  - intros (m & e & E & H). apply generic_format_FLT. apply (FLT_spec _ _ _ _ (Float radix2 m e)).
    + rewrite E, powerRZ_bpow. reflexivity.
    + destruct p; cbn in *; lia.
    + destruct p; cbn in *; lia.
  - intros F. apply FLT_format_generic in F; [|apply bits_pos]. destruct F as [[m e] E M L]. exists m, e. cbn in *.
    split; [rewrite E, powerRZ_bpow; reflexivity|destruct p; cbn in *; lia].
Qed.

Lemma format_0 : forall p, format p 0.
Proof. intros p. apply generic_format_0. Qed.
Lemma rnd_format : forall p x, format p (rnd p x).
Proof. intros p x. apply generic_format_round; [apply FLT_exp_valid, bits_pos|apply valid_rnd_N]. Qed.
Lemma rnd_id : forall p x, format p x -> rnd p x = x.
Proof. intros p x F. apply round_generic; [apply valid_rnd_N|exact F]. Qed.
Lemma rnd_le : forall p x y, x <= y -> rnd p x <= rnd p y.
Proof. intros p x y H. apply round_le; [apply FLT_exp_valid, bits_pos|apply valid_rnd_N|exact H]. Qed.
Lemma rnd_0 : forall p, rnd p 0 = 0.
Proof. intros p. apply rnd_id, format_0. Qed.
Lemma rnd_nonneg : forall p x, 0 <= x -> 0 <= rnd p x.
Proof. intros p x H. rewrite <- (rnd_0 p). now apply rnd_le. Qed.
Lemma single_double : forall x, format Single x -> format Double x.
Proof.
  intros x F. apply format_is_float in F as (m & e & E & H1 & H2). apply format_is_float. exists m, e. split; [exact E|]. lia.
Qed.

Lemma bpow_inv_pow : forall n, bpow radix2 (- Z.of_nat n) = / 2 ^ n.
Proof. intros n. rewrite bpow_opp, <- powerRZ_bpow, <- pow_powerRZ. reflexivity. Qed.
Lemma bpow_pow : forall n, bpow radix2 (Z.of_nat n) = 2 ^ n.
Proof. intros n. rewrite <- powerRZ_bpow, <- pow_powerRZ. reflexivity. Qed.

Lemma top_bpow : forall p, top p = bpow radix2 (emax p).
Proof. intros [|]; [apply (eq_sym (bpow_pow 128))|apply (eq_sym (bpow_pow 1024))]. Qed.
Lemma unit_bpow : forall p, unit p = bpow radix2 (- bits p).
Proof. intros [|]; [apply (eq_sym (bpow_inv_pow 24))|apply (eq_sym (bpow_inv_pow 53))]. Qed.
Lemma unit_pos : forall p, 0 < unit p < 1.
Proof. intros p. rewrite unit_bpow. split; [apply bpow_gt_0|]. change 1 with (bpow radix2 0). apply bpow_lt. destruct p; reflexivity. Qed.
Lemma unit_half : forall p, / 2 * bpow radix2 (- bits p + 1) = unit p.
Proof. intros p. rewrite unit_bpow, bpow_plus. change (bpow radix2 1) with 2. field. Qed.
Lemma tiny_bpow : forall p, tiny_half p = / 2 * bpow radix2 (emin p).
Proof.
  intros p. replace (/ 2 * bpow radix2 (emin p)) with (bpow radix2 (emin p - 1)) by (unfold Z.sub; rewrite bpow_plus; change (bpow radix2 (-(1))) with (/ 2); ring).
  destruct p; [apply (eq_sym (bpow_inv_pow 150))|apply (eq_sym (bpow_inv_pow 1075))].
Qed.
Lemma tiny_pos : forall p, 0 < tiny_half p.
Proof. intros p. rewrite tiny_bpow. pose proof (bpow_gt_0 radix2 (emin p)). lra. Qed.

(** A sum is only rounded relatively. *)
Lemma rnd_sum : forall p x y, format p x -> format p y -> 0 <= x -> 0 <= y ->
  (1 - unit p) * (x + y) <= rnd p (x + y) <= (1 + unit p) * (x + y).
Proof.
  intros p x y Fx Fy Px Py. destruct (FLT_plus_error_N_ex radix2 (emin p) (bits p) (fun z => negb (Z.even z)) x y Fx Fy) as (e & E & H).
  unfold rnd. rewrite H. assert (Rabs e <= unit p).
  { eapply Rle_trans; [exact E|]. unfold u_ro. rewrite unit_half. pose proof (unit_pos p). apply Rmult_le_reg_r with (1 + unit p); [lra|].
    unfold Rdiv. rewrite Rmult_assoc, Rinv_l, Rmult_1_r by lra. nra. }
  apply Rabs_le_inv in H0 as (A & B). split; nra.
Qed.

(** Any number. *)
Lemma rnd_any : forall p x, 0 <= x -> (1 - unit p) * x - tiny_half p <= rnd p x <= (1 + unit p) * x + tiny_half p.
Proof.
  intros p x Px. destruct (error_N_FLT radix2 (emin p) (bits p) (bits_pos p) (fun z => negb (Z.even z)) x) as (e & t & E & T & _ & H).
  unfold rnd. rewrite H. rewrite unit_half in E. rewrite <- tiny_bpow in T. apply Rabs_le_inv in E as (A & B). apply Rabs_le_inv in T as (C & D). split; nra.
Qed.

(** ** Approximation *)

(** [y] is [x] after [a] roundings to double and [b] to single precision, [m] of which may underflow. *)
Definition lo (a b : nat) : R := (1 - unit Double) ^ a * (1 - unit Single) ^ b.
Definition hi (a b : nat) : R := (1 + unit Double) ^ a * (1 + unit Single) ^ b.
Definition approx (a b m : nat) (x y : R) : Prop :=
  lo a b * x - INR m * tiny_half Single <= y <= hi a b * (x + INR m * tiny_half Single).

Lemma pow_between : forall x n, 0 <= x <= 1 -> 0 <= x ^ n <= 1.
Proof. intros x n H. induction n as [|n IH]; cbn; [lra|]. nra. Qed.
Lemma pow_below : forall x n k, 0 <= x <= 1 -> x ^ (n + k) <= x ^ n.
Proof. intros x n k H. rewrite pow_add. pose proof (pow_between x n H). pose proof (pow_between x k H). nra. Qed.
Lemma lo_range : forall a b, 0 <= lo a b <= 1.
Proof.
  intros a b. unfold lo. pose proof (unit_pos Double). pose proof (unit_pos Single).
  pose proof (pow_between (1 - unit Double) a ltac:(lra)). pose proof (pow_between (1 - unit Single) b ltac:(lra)). nra.
Qed.
Lemma hi_range : forall a b, 1 <= hi a b.
Proof.
  intros a b. unfold hi. pose proof (unit_pos Double). pose proof (unit_pos Single).
  pose proof (pow_R1_Rle (1 + unit Double) a ltac:(lra)). pose proof (pow_R1_Rle (1 + unit Single) b ltac:(lra)). nra.
Qed.
Lemma lo_add : forall a b a' b', lo (a + a') (b + b') = lo a b * lo a' b'.
Proof. intros. unfold lo. rewrite !pow_add. ring. Qed.
Lemma hi_add : forall a b a' b', hi (a + a') (b + b') = hi a b * hi a' b'.
Proof. intros. unfold hi. rewrite !pow_add. ring. Qed.
Lemma lo_mono : forall a b a' b', (a <= a')%nat -> (b <= b')%nat -> lo a' b' <= lo a b.
Proof.
  intros a b a' b' A B. replace a' with (a + (a' - a))%nat by lia. replace b' with (b + (b' - b))%nat by lia. rewrite lo_add.
  pose proof (lo_range a b). pose proof (lo_range (a' - a) (b' - b)). nra.
Qed.
Lemma hi_mono : forall a b a' b', (a <= a')%nat -> (b <= b')%nat -> hi a b <= hi a' b'.
Proof.
  intros a b a' b' A B. replace a' with (a + (a' - a))%nat by lia. replace b' with (b + (b' - b))%nat by lia. rewrite hi_add.
  pose proof (hi_range a b). pose proof (hi_range (a' - a) (b' - b)). nra.
Qed.

Lemma approx_weaken : forall a b m a' b' m' x y, (a <= a')%nat -> (b <= b')%nat -> (m <= m')%nat -> 0 <= x -> approx a b m x y -> approx a' b' m' x y.
Proof.
  intros a b m a' b' m' x y A B M X (L & H). pose proof (lo_mono a b a' b' A B). pose proof (hi_mono a b a' b' A B). apply le_INR in M.
  pose proof (tiny_pos Single). pose proof (pos_INR m). pose proof (lo_range a b). pose proof (hi_range a b). split.
  - assert (lo a' b' * x <= lo a b * x) by nra. nra.
  - eapply Rle_trans; [exact H|]. assert (x + INR m * tiny_half Single <= x + INR m' * tiny_half Single) by nra.
    assert (0 <= x + INR m * tiny_half Single) by nra. nra.
Qed.

(** The bound that must stay below the largest number. *)
Definition bound (a b m : nat) (x : R) : R := hi a b * (x + INR m * tiny_half Single).
Lemma bound_mono : forall a b m a' b' m' x x', (a <= a')%nat -> (b <= b')%nat -> (m <= m')%nat -> 0 <= x <= x' -> bound a b m x <= bound a' b' m' x'.
Proof.
  intros a b m a' b' m' x x' A B M X. unfold bound. pose proof (hi_mono a b a' b' A B). apply le_INR in M. pose proof (tiny_pos Single). pose proof (pos_INR m).
  pose proof (hi_range a b). assert (x + INR m * tiny_half Single <= x' + INR m' * tiny_half Single) by nra. assert (0 <= x + INR m * tiny_half Single) by nra. nra.
Qed.

(** [v] approximates [x] unless numbers get larger than [T]. *)
Definition near (T : R) (p : prec) (a b m : nat) (x : R) (v : fl) : Prop :=
  bound a b m x < T -> exists y, v = Fin y /\ 0 <= y /\ format p y /\ approx a b m x y.

Lemma near_weaken : forall T p a b m a' b' m' x v, (a <= a')%nat -> (b <= b')%nat -> (m <= m')%nat -> 0 <= x -> near T p a b m x v -> near T p a' b' m' x v.
Proof.
  intros T p a b m a' b' m' x v A B M X N H. destruct N as (y & E & P & F & Q).
  { eapply Rle_lt_trans; [|exact H]. apply bound_mono; auto; lra. }
  exists y. repeat split; auto; apply (approx_weaken a b m a' b' m' x y A B M X Q).
Qed.

Lemma finite_fin : forall p x, 0 <= x -> rnd p x < top p -> finite p x = Fin (rnd p x).
Proof.
  intros p x P L. unfold finite. rewrite top_bpow in L. pose proof (rnd_nonneg p x P). pose proof (bpow_gt_0 radix2 (emax p)).
  destruct (Rle_dec _ _); [lra|]. destruct (Rle_dec _ _); [lra|]. reflexivity.
Qed.

Lemma near_0 : forall T p, near T p 0 0 0 0 (Fin 0).
Proof. intros T p _. exists 0. repeat split; try apply format_0; try lra; unfold approx, lo, hi; cbn; lra. Qed.
Lemma near_exact : forall T p x, 0 <= x -> format p x -> near T p 0 0 0 x (Fin x).
Proof. intros T p x P F _. exists x. repeat split; auto; unfold lo, hi; cbn; lra. Qed.

Lemma lo_S1 : forall a b, lo (S a) b = (1 - unit Double) * lo a b.
Proof. intros. unfold lo. cbn [pow]. ring. Qed.
Lemma hi_S1 : forall a b, hi (S a) b = (1 + unit Double) * hi a b.
Proof. intros. unfold hi. cbn [pow]. ring. Qed.
Lemma lo_S2 : forall a b, lo a (S b) = (1 - unit Single) * lo a b.
Proof. intros. unfold lo. cbn [pow]. ring. Qed.
Lemma hi_S2 : forall a b, hi a (S b) = (1 + unit Single) * hi a b.
Proof. intros. unfold hi. cbn [pow]. ring. Qed.

Lemma approx_sum : forall a b m m' x x' y y', approx a b m x y -> approx a b m' x' y' -> approx a b (m + m') (x + x') (y + y').
Proof. intros a b m m' x x' y y' (A & B) (C & D). unfold approx. rewrite plus_INR. split; lra. Qed.

Lemma approx_round : forall a b m x y l h z, approx a b m x y -> 0 <= l <= 1 -> 1 <= h -> 0 <= x -> l * y <= z <= h * y -> 
  l * lo a b * x - INR m * tiny_half Single <= z <= h * hi a b * (x + INR m * tiny_half Single).
Proof.
  intros a b m x y l h z (A & B) L H X (C & D). pose proof (tiny_pos Single). pose proof (pos_INR m). split.
  - apply Rle_trans with (l * (lo a b * x - INR m * tiny_half Single)); [|nra]. assert (0 <= INR m * tiny_half Single) by nra. nra.
  - eapply Rle_trans; [exact D|]. rewrite Rmult_assoc. apply Rmult_le_compat_l; lra.
Qed.

(** Addition in one of the precisions. *)
Definition in_double (p : prec) : nat := match p with Double => 1 | Single => 0 end.
Definition in_single (p : prec) : nat := match p with Double => 0 | Single => 1 end.

Lemma near_add : forall T p q a b m a' b' m' x x' v v', T <= top p -> (p = q \/ p = Double) -> 0 <= x -> 0 <= x' ->
  near T p a b m x v -> near T q a' b' m' x' v' -> near T p (a + a' + in_double p) (b + b' + in_single p) (m + m') (x + x') (fadd p v v').
Proof.
  intros T p q a b m a' b' m' x x' v v' Top Q X X' N N' H.
  set (A := (a + a')%nat). set (B := (b + b')%nat). fold A B in H.
  apply (near_weaken T p a b m A B m x v) in N; [|lia..|exact X]. apply (near_weaken T q a' b' m' A B m' x' v') in N'; [|lia..|exact X'].
  destruct N as (y & -> & Py & Fy & Ey). { eapply Rle_lt_trans; [|exact H]. apply bound_mono; try lia; lra. }
  destruct N' as (y' & -> & Py' & Fy' & Ey'). { eapply Rle_lt_trans; [|exact H]. apply bound_mono; try lia; lra. }
  assert (Fq : format p y') by (destruct Q as [-> | ->]; [exact Fy'|destruct q; [apply single_double|]; exact Fy']).
  pose proof (approx_sum _ _ _ _ _ _ _ _ Ey Ey') as Es. pose proof (rnd_sum p y y' Fy Fq Py Py') as Rs. pose proof (unit_pos p) as Up.
  pose proof (approx_round _ _ _ _ _ (1 - unit p) (1 + unit p) _ Es ltac:(split; lra) ltac:(lra) ltac:(lra) Rs) as K.
  assert (K' : approx (A + in_double p) (B + in_single p) (m + m') (x + x') (rnd p (y + y'))).
  { unfold approx. destruct p; cbn [in_double in_single]; rewrite ?Nat.add_0_r, ?Nat.add_1_r; [rewrite lo_S2, hi_S2|rewrite lo_S1, hi_S1]; exact K. }
  exists (rnd p (y + y')). split; [|split; [apply rnd_nonneg; lra|split; [apply rnd_format|exact K']]].
  cbn [fadd]. apply finite_fin; [lra|]. eapply Rle_lt_trans; [apply K'|]. eapply Rlt_le_trans; [exact H|exact Top].
Qed.

Lemma near_cast : forall T p a b m x v, T <= top Single -> 0 <= x -> near T p a b m x v -> near T Single a (S b) (S m) x (cast Single v).
Proof.
  intros T p a b m x v Top X N H. destruct N as (y & -> & Py & Fy & (L & U)). { eapply Rle_lt_trans; [|exact H]. apply bound_mono; try lia; lra. }
  pose proof (rnd_any Single y Py) as Rs. pose proof (unit_pos Single) as Up. pose proof (tiny_pos Single) as Tp. pose proof (pos_INR m) as Pm.
  pose proof (lo_range a b). pose proof (hi_range a b).
  assert (K : approx a (S b) (S m) x (rnd Single y)).
  { unfold approx. rewrite lo_S2, hi_S2, S_INR. split.
    - assert ((1 - unit Single) * (lo a b * x - INR m * tiny_half Single) <= (1 - unit Single) * y) by (apply Rmult_le_compat_l; lra).
      assert (0 <= unit Single * (INR m * tiny_half Single)) by (apply Rmult_le_pos; [lra|]; apply Rmult_le_pos; lra). lra.
    - destruct Rs as (_ & Rs). eapply Rle_trans; [exact Rs|].
      assert ((1 + unit Single) * y <= (1 + unit Single) * (hi a b * (x + INR m * tiny_half Single))) by (apply Rmult_le_compat_l; lra).
      assert (1 * tiny_half Single <= (1 + unit Single) * hi a b * tiny_half Single) by (apply Rmult_le_compat_r; [lra|]; nra). lra. }
  exists (rnd Single y). split; [|split; [apply rnd_nonneg; exact Py|split; [apply rnd_format|exact K]]].
  cbn [cast]. apply finite_fin; [exact Py|]. eapply Rle_lt_trans; [apply K|]. eapply Rlt_le_trans; [exact H|exact Top].
Qed.

(** ** Sums *)

Lemma total_app : forall l l', total (l ++ l') = total l + total l'.
Proof. intros l l'. unfold total. induction l as [|x l IH]; cbn; [ring|]. rewrite IH. ring. Qed.
Lemma total_nonneg : forall l, Forall (fun c => 0 <= c /\ is_float Double c) l -> 0 <= total l.
Proof. intros l F. unfold total. induction F as [|x l (H & _) F IH]; cbn; lra. Qed.

Lemma particle_near : forall T cs, T <= top Double -> Forall (fun c => 0 <= c /\ is_float Double c) cs -> near T Double (length cs) 0 0 (total cs) (particle_sum cs).
Proof.
  intros T cs Top F. unfold particle_sum.
  assert (G : forall cs a x v, Forall (fun c => 0 <= c /\ is_float Double c) cs -> 0 <= x -> near T Double a 0 0 x v ->
    near T Double (a + length cs) 0 0 (x + total cs) (fold_left (fun acc c => fadd Double acc (Fin c)) cs v)).
  { clear cs F. induction cs as [|c cs IH]; intros a x v F X N.
    - cbn. rewrite Nat.add_0_r, Rplus_0_r. exact N.
    - inversion F as [|? ? (Pc & Fc) F']; subst. cbn [fold_left length total fold_right]. apply format_is_float in Fc.
      pose proof (near_add T Double Double a 0 0 0 0 0 x c v (Fin c) Top (or_introl eq_refl) X Pc N (near_exact T Double c Pc Fc)) as K. cbn [in_double in_single] in K.
      specialize (IH (a + 0 + 1)%nat (x + c) _ F' ltac:(lra) K). unfold total in IH. replace (a + S (length cs))%nat with (a + 0 + 1 + length cs)%nat by lia.
      rewrite <- Rplus_assoc. exact IH. }
  specialize (G cs 0%nat 0 (Fin 0) F ltac:(lra) (near_0 T Double)). rewrite Rplus_0_l in G. exact G.
Qed.

Lemma Forall_app1 : forall {A} (P : A -> Prop) l l', Forall P (l ++ l') -> Forall P l /\ Forall P l'.
Proof. intros A P l l' H. apply Forall_app in H. exact H. Qed.

(** The result of a rank whose first segment has particles. *)
Lemma rank_double : forall rest a x v, proper rest -> 0 <= x -> near (top Double) Double a 0 0 x v ->
  exists w, fold_left accumulate (map interpolate_segment rest) (Double, v) = (Double, w) /\
    near (top Double) Double (a + length (all_added rest) + length rest) 0 0 (x + total (all_added rest)) w.
Proof.
  induction rest as [|s rest IH]; intros a x v F X N.
  - exists v. split; [reflexivity|]. cbn. rewrite !Nat.add_0_r, Rplus_0_r. exact N.
  - unfold proper, all_added in F. cbn [map concat] in F. apply Forall_app1 in F as (F1 & F2).
    cbn [map fold_left]. unfold accumulate at 2. cbn [fst snd].
    assert (N2 : near (top Double) Double (length (added s)) 0 0 (total (added s)) (snd (interpolate_segment s))).
    { destruct s as [cs|]; cbn [interpolate_segment snd added] in *; [apply particle_near; [lra|exact F1]|apply near_0]. }
    assert (N3 := near_add (top Double) Double Double a 0 0 (length (added s)) 0 0 x (total (added s)) v _ (Rle_refl _) (or_introl eq_refl) X (total_nonneg _ F1) N N2).
    cbn [in_double in_single] in N3. pose proof (total_nonneg _ F1).
    destruct (IH _ (x + total (added s)) _ F2 ltac:(lra) N3) as (w & E & Nw). exists w. split.
    + destruct (fst (interpolate_segment s)); exact E.
    + unfold all_added in *. cbn [map concat]. rewrite app_length, total_app, <- Rplus_assoc. cbn [length].
      eapply near_weaken; [| | | |exact Nw]; try lia. pose proof (total_nonneg _ F2). unfold all_added in *. lra.
Qed.

Lemma pow_tends : forall u n, 0 <= u <= 1 -> 1 - ((1 + u) ^ n - 1) <= (1 - u) ^ n.
Proof.
  intros u n U. induction n as [|n IH]; cbn [pow]; [lra|].
  pose proof (pow_R1_Rle (1 + u) n ltac:(lra)). pose proof (pow_between (1 - u) n ltac:(lra)). nra.
Qed.

Lemma serial_aux : forall cs rest, proper (Some cs :: rest) ->
  (1 + unit Double) ^ (length (all_added (Some cs :: rest)) + length rest) * total (all_added (Some cs :: rest)) < top Double ->
  exists v, compute_serial (Some cs) rest = (Double, Fin v) /\ 0 <= v /\
    Rabs (v - total (all_added (Some cs :: rest))) <= ((1 + unit Double) ^ (length (all_added (Some cs :: rest)) + length rest) - 1) * total (all_added (Some cs :: rest)).
Proof.
  intros cs rest F H. pose proof (total_nonneg _ F) as Pt. unfold proper in F. unfold all_added in F. cbn [map concat] in F. apply Forall_app1 in F as (F1 & F2).
  pose proof (particle_near (top Double) cs (Rle_refl _) F1) as N. destruct (rank_double rest _ _ _ F2 (total_nonneg _ F1) N) as (w & E & Nw).
  unfold compute_serial, rank_sum. cbn [interpolate_segment]. rewrite E.
  assert (Ea : all_added (Some cs :: rest) = cs ++ all_added rest) by reflexivity. rewrite Ea in *. rewrite total_app in *. rewrite app_length in *.
  destruct Nw as (y & -> & Py & _ & (L & U)).
  { unfold bound, hi. cbn [pow INR]. rewrite Rmult_0_l, Rplus_0_r, Rmult_1_r. exact H. }
  exists y. split; [reflexivity|]. split; [exact Py|]. unfold lo, hi in *. cbn [pow INR] in *. rewrite Rmult_0_l, ?Rminus_0_r, ?Rplus_0_r, !Rmult_1_r in *.
  pose proof (unit_pos Double) as Ud. pose proof (pow_tends (unit Double) (length cs + length (all_added rest) + length rest) ltac:(lra)).
  set (t := total cs + total (all_added rest)) in *. set (P := (1 + unit Double) ^ _) in *. set (Q := (1 - unit Double) ^ _) in *. fold t in Pt. assert ((1 - (P - 1)) * t <= Q * t) by (apply Rmult_le_compat_r; [exact Pt|]; fold P Q in H0; exact H0). change (total (added (Some cs))) with (total cs) in L, U. fold t in L, U. apply Rabs_le. split; lra.
Qed.

(** Any rank. *)
Lemma rank_near : forall rest p a b m x v, proper rest -> 0 <= x -> near (top Single) p a b m x v ->
  exists w, fold_left accumulate (map interpolate_segment rest) (p, v) = (p, w) /\
    near (top Single) p (a + length (all_added rest) + length rest) (b + length rest) (m + length rest) (x + total (all_added rest)) w.
Proof.
  assert (TT : top Single <= top Double) by (rewrite !top_bpow; apply bpow_le; cbn; lia).
  induction rest as [|s rest IH]; intros p a b m x v F X N.
  - exists v. split; [reflexivity|]. cbn. rewrite !Nat.add_0_r, Rplus_0_r. exact N.
  - unfold proper, all_added in F. cbn [map concat] in F. apply Forall_app1 in F as (F1 & F2). pose proof (total_nonneg _ F1) as P1. pose proof (total_nonneg _ F2) as P2.
    cbn [map fold_left].
    assert (N2 : near (top Single) (fst (interpolate_segment s)) (length (added s)) 0 0 (total (added s)) (snd (interpolate_segment s))).
    { destruct s as [cs|]; cbn [interpolate_segment fst snd added] in *; [apply particle_near; [exact TT|exact F1]|apply near_0]. }
    assert (N3 : exists w, accumulate (p, v) (interpolate_segment s) = (p, w) /\
      near (top Single) p (a + length (added s) + 1) (b + 1) (m + 1) (x + total (added s)) w).
    { unfold accumulate. cbn [fst snd]. destruct p, (fst (interpolate_segment s)); eexists; (split; [reflexivity|]).
      - eapply near_weaken; [| | | |apply (near_add (top Single) Single Single a b m (length (added s)) 0 0 x (total (added s)) v _ (Rle_refl _) (or_introl eq_refl) X P1 N N2)]; cbn [in_double in_single]; try lia; lra.
      - assert (K : near (top Single) Double a b m x v). { intros Hb. destruct (N Hb) as (y & E & Py & Fy & A). exists y. repeat split; auto; try apply A. now apply single_double. }
        pose proof (near_add (top Single) Double Double a b m (length (added s)) 0 0 x (total (added s)) v _ TT (or_introl eq_refl) X P1 K N2) as M. cbn [in_double in_single] in M.
        apply near_cast in M; [|lra|lra]. eapply near_weaken; [| | | |exact M]; try lia; lra.
      - eapply near_weaken; [| | | |apply (near_add (top Single) Double Single a b m (length (added s)) 0 0 x (total (added s)) v _ TT (or_intror eq_refl) X P1 N N2)]; cbn [in_double in_single]; try lia; lra.
      - eapply near_weaken; [| | | |apply (near_add (top Single) Double Double a b m (length (added s)) 0 0 x (total (added s)) v _ TT (or_introl eq_refl) X P1 N N2)]; cbn [in_double in_single]; try lia; lra. }
    destruct N3 as (w1 & E1 & N3). rewrite E1.
    destruct (IH p _ _ _ (x + total (added s)) w1 F2 ltac:(lra) N3) as (w & E & Nw). exists w. split; [exact E|].
    unfold all_added in *. cbn [map concat]. rewrite app_length, total_app, <- Rplus_assoc. cbn [length].
    eapply near_weaken; [| | | |exact Nw]; try lia; lra.
Qed.

Lemma first_near : forall s, Forall (fun c => 0 <= c /\ is_float Double c) (added s) ->
  near (top Single) (fst (interpolate_segment s)) (length (added s)) 0 0 (total (added s)) (snd (interpolate_segment s)).
Proof.
  intros s F. assert (TT : top Single <= top Double) by (rewrite !top_bpow; apply bpow_le; cbn; lia).
  destruct s as [cs|]; cbn [interpolate_segment fst snd added] in *; [apply particle_near; [exact TT|exact F]|apply near_0].
Qed.

Lemma rank_full : forall first rest, proper (first :: rest) -> exists w,
  rank_sum first rest = (fst (interpolate_segment first), w) /\
  near (top Single) (fst (interpolate_segment first)) (length (all_added (first :: rest)) + length rest) (length rest) (length rest) (total (all_added (first :: rest))) w.
Proof.
  intros first rest F. unfold proper, all_added in F. cbn [map concat] in F. apply Forall_app1 in F as (F1 & F2).
  destruct (rank_near rest _ _ _ _ _ _ F2 (total_nonneg _ F1) (first_near first F1)) as (w & E & N). exists w. split.
  - unfold rank_sum. destruct (interpolate_segment first); exact E.
  - change (all_added (first :: rest)) with (added first ++ all_added rest). rewrite app_length, total_app. eapply near_weaken; [| | | |exact N]; try lia.
    pose proof (total_nonneg _ F1). pose proof (total_nonneg _ F2). unfold all_added. lra.
Qed.

Lemma rank_type : forall first rest, fst (rank_sum first rest) = match first with Some _ => Double | None => Single end.
Proof.
  intros first rest. unfold rank_sum.
  assert (G : forall l r, fst (fold_left accumulate l r) = fst r).
  { induction l as [|t l IH]; intros r; cbn; [reflexivity|]. rewrite IH. unfold accumulate. destruct (fst r) eqn:E, (fst t); cbn; auto. }
  rewrite G. destruct first; reflexivity.
Qed.
