From Coq Require Import ZArith List Bool Reals Lra Lia Psatz.
From Coquelicot Require Import Coquelicot.
From Verif Require Import AbsorptionModel AbsorptionSpec.
Import ListNotations.
Local Open Scope R_scope.

(** ** Polynomial pieces *)
Definition cub1 (q : R) := 32 / 4 / PI * (1 - 6 * q * q + 6 * q * q * q).
Definition cub2 (q : R) := 32 / 4 / PI * (2 * (1 - q) ^ 3).
Definition qui1 (q : R) :=
  9 / 40 / PI * 6 * (11 - 90 * q * q + 405 * q * q * q * q - 405 * q * q * q * q * q).
Definition qui2 (q : R) := 9 / 40 / PI * ((3 - 3 * q) ^ 5 - 6 * (2 - 3 * q) ^ 5).
Definition qui3 (q : R) := 9 / 40 / PI * (243 * (1 - q) ^ 5).

Lemma cubic_cases : forall q,
  (q <= 1/2 -> sph_cubic_kernel q = cub1 q) /\
  (1/2 <= q <= 1 -> sph_cubic_kernel q = cub2 q) /\
  (1 <= q -> sph_cubic_kernel q = 0).
Proof.
  intros q. unfold sph_cubic_kernel, cub1, cub2. split; [|split]; intros H.
  - destruct (Rle_dec 1 q); [lra|]. destruct (Rlt_dec q (1/2)); [reflexivity|].
    assert (q = 1/2) by lra. subst. f_equal. lra.
  - destruct (Rle_dec 1 q); [assert (q = 1) by lra; subst; ring|].
    destruct (Rlt_dec q (1/2)); [lra|reflexivity].
  - destruct (Rle_dec 1 q); [reflexivity|lra].
Qed.

Lemma quintic_cases : forall q,
  (q <= 1/3 -> sph_quintic_kernel q = qui1 q) /\
  (1/3 <= q <= 2/3 -> sph_quintic_kernel q = qui2 q) /\
  (2/3 <= q <= 1 -> sph_quintic_kernel q = qui3 q) /\
  (1 <= q -> sph_quintic_kernel q = 0).
Proof.
  intros q. unfold sph_quintic_kernel, qui1, qui2, qui3. repeat split; intros H.
  - destruct (Rle_dec 1 q); [lra|]. destruct (Rlt_dec q (1/3)); [reflexivity|].
    assert (q = 1/3) by lra. subst. destruct (Rlt_dec (1/3) (2/3)); [|lra].
    rewrite Rmult_assoc. f_equal. lra.
  - destruct (Rle_dec 1 q); [lra|]. destruct (Rlt_dec q (1/3)); [lra|].
    destruct (Rlt_dec q (2/3)); [reflexivity|].
    assert (q = 2/3) by lra. subst. f_equal. lra.
  - destruct (Rle_dec 1 q); [assert (q = 1) by lra; subst; ring|].
    destruct (Rlt_dec q (1/3)); [lra|]. destruct (Rlt_dec q (2/3)); [lra|reflexivity].
  - destruct (Rle_dec 1 q); [reflexivity|lra].
Qed.

Lemma norm3_pos : 0 < 32 / 4 / PI.
Proof. pose proof PI_RGT_0. apply Rdiv_lt_0_compat; lra. Qed.
Lemma norm5_pos : 0 < 9 / 40 / PI.
Proof. pose proof PI_RGT_0. apply Rdiv_lt_0_compat; lra. Qed.

(** ** Monotone decrease, piece by piece *)
Lemma cub1_dec : forall p q, 0 <= p -> p <= q -> q <= 1/2 -> cub1 q <= cub1 p.
Proof.
  intros p q H0 H1 H2. unfold cub1. apply Rmult_le_compat_l; [left; apply norm3_pos|].
  assert (0 <= (q - p) * (6 * (q + p) - 6 * (q*q + q*p + p*p))); [|nra].
  apply Rmult_le_pos; [lra|]. nra.
Qed.
Lemma cub2_dec : forall p q, p <= q -> q <= 1 -> cub2 q <= cub2 p.
Proof.
  intros p q H0 H1. unfold cub2. apply Rmult_le_compat_l; [left; apply norm3_pos|].
  apply Rmult_le_compat_l; [lra|]. apply pow_incr. lra.
Qed.
Lemma qui1_dec : forall p q, 0 <= p -> p <= q -> q <= 1/3 -> qui1 q <= qui1 p.
Proof.
  intros p q H0 H1 H2. unfold qui1.
  apply Rmult_le_compat_l; [left; apply Rmult_lt_0_compat; [apply norm5_pos|lra]|].
  assert (0 <= (q - p) * ((q + p) * (90 - 405 * (q*q + p*p)) +
     405 * (q*q*q*q + q*q*q*p + q*q*p*p + q*p*p*p + p*p*p*p))); [|nra].
  apply Rmult_le_pos; [lra|]. apply Rplus_le_le_0_compat.
  - apply Rmult_le_pos; [lra|]. nra.
  - apply Rmult_le_pos; [lra|].
    assert (0 <= q) by lra.
    repeat apply Rplus_le_le_0_compat; repeat apply Rmult_le_pos; lra.
Qed.
Lemma qui2_dec : forall p q, 1/3 <= p -> p <= q -> q <= 2/3 -> qui2 q <= qui2 p.
Proof.
  intros p q H0 H1 H2. unfold qui2. apply Rmult_le_compat_l; [left; apply norm5_pos|].
  set (t := 2 - 3 * p). set (s := 2 - 3 * q).
  replace (3 - 3 * p) with (t + 1) by (unfold t; ring).
  replace (3 - 3 * q) with (s + 1) by (unfold s; ring).
  assert (Hs : 0 <= s <= t) by (unfold s, t; lra).
  assert (Ht : t <= 1) by (unfold t; lra).
  clearbody s t. clear H0 H1 H2 p q.
  assert (Ha : 2 * t <= t + 1) by lra. assert (Hb : 2 * s <= s + 1) by lra.
  assert (E : forall a b, a ^ 5 - b ^ 5 = (a - b) * (a^4 + a^3*b + a^2*b^2 + a*b^3 + b^4)) by (intros; ring).
  assert (Hm : forall i j, 2^i * 2^j * (t^i * s^j) <= (t+1)^i * (s+1)^j).
  { intros i j. replace (2^i * 2^j * (t^i * s^j)) with ((2*t)^i * (2*s)^j).
    - apply Rmult_le_compat; try (apply pow_le; lra); apply pow_incr; lra.
    - rewrite !Rpow_mult_distr. ring. }
  assert (Hp : forall i j, 0 <= t^i * s^j) by (intros; apply Rmult_le_pos; apply pow_le; lra).
  pose proof (E (t+1) (s+1)) as E1. pose proof (E t s) as E2.
  pose proof (Hm 4%nat 0%nat) as M0. pose proof (Hm 3%nat 1%nat) as M1.
  pose proof (Hm 2%nat 2%nat) as M2. pose proof (Hm 1%nat 3%nat) as M3.
  pose proof (Hm 0%nat 4%nat) as M4.
  pose proof (Hp 4%nat 0%nat) as P0. pose proof (Hp 3%nat 1%nat) as P1.
  pose proof (Hp 2%nat 2%nat) as P2. pose proof (Hp 1%nat 3%nat) as P3.
  pose proof (Hp 0%nat 4%nat) as P4.
  assert (Hq : 6 * (t^4 + t^3*s + t^2*s^2 + t*s^3 + s^4) <=
     (t+1)^4 + (t+1)^3*(s+1) + (t+1)^2*(s+1)^2 + (t+1)*(s+1)^3 + (s+1)^4) by lra.
  assert (0 <= (t - s) * ((t+1)^4 + (t+1)^3*(s+1) + (t+1)^2*(s+1)^2 + (t+1)*(s+1)^3 + (s+1)^4 -
     6 * (t^4 + t^3*s + t^2*s^2 + t*s^3 + s^4))) by (apply Rmult_le_pos; lra).
  replace (t + 1 - (s + 1)) with (t - s) in E1 by ring. lra.
Qed.
Lemma qui3_dec : forall p q, p <= q -> q <= 1 -> qui3 q <= qui3 p.
Proof.
  intros p q H0 H1. unfold qui3. apply Rmult_le_compat_l; [left; apply norm5_pos|].
  apply Rmult_le_compat_l; [lra|]. apply pow_incr. lra.
Qed.

Lemma cub2_nonneg : forall q, q <= 1 -> 0 <= cub2 q.
Proof.
  intros. unfold cub2. apply Rmult_le_pos; [left; apply norm3_pos|].
  apply Rmult_le_pos; [lra|]. apply pow_le. lra.
Qed.
Lemma qui3_nonneg : forall q, q <= 1 -> 0 <= qui3 q.
Proof.
  intros. unfold qui3. apply Rmult_le_pos; [left; apply norm5_pos|].
  apply Rmult_le_pos; [lra|]. apply pow_le. lra.
Qed.

Lemma cubic_dec : forall p q, 0 <= p -> p <= q -> sph_cubic_kernel q <= sph_cubic_kernel p.
Proof.
  intros p q H0 H1.
  destruct (cubic_cases p) as (P1 & P2 & P3). destruct (cubic_cases q) as (Q1 & Q2 & Q3).
  assert (Hhalf : cub1 (1/2) = cub2 (1/2)) by (unfold cub1, cub2; f_equal; lra).
  destruct (Rle_dec q (1/2)); [rewrite Q1, P1 by lra; apply cub1_dec; lra|].
  destruct (Rle_dec q 1).
  - rewrite Q2 by lra. destruct (Rle_dec p (1/2)).
    + rewrite P1 by lra. apply Rle_trans with (cub2 (1/2)); [apply cub2_dec; lra|].
      rewrite <- Hhalf. apply cub1_dec; lra.
    + rewrite P2 by lra. apply cub2_dec; lra.
  - rewrite Q3 by lra. destruct (Rle_dec p (1/2)).
    + rewrite P1 by lra. apply Rle_trans with (cub2 (1/2)); [apply cub2_nonneg; lra|].
      rewrite <- Hhalf. apply cub1_dec; lra.
    + destruct (Rle_dec p 1); [rewrite P2 by lra; apply cub2_nonneg; lra|rewrite P3 by lra; lra].
Qed.

Lemma quintic_dec : forall p q, 0 <= p -> p <= q -> sph_quintic_kernel q <= sph_quintic_kernel p.
Proof.
  assert (H13 : qui1 (1/3) = qui2 (1/3)) by (unfold qui1, qui2; rewrite Rmult_assoc; f_equal; lra).
  assert (H23 : qui2 (2/3) = qui3 (2/3)) by (unfold qui2, qui3; f_equal; lra).
  assert (H01 : qui3 1 = 0) by (unfold qui3; ring).
  (* it is enough to go through the break points *)
  assert (S1 : forall p q, 0 <= p -> p <= q -> q <= 1/3 -> sph_quintic_kernel q <= sph_quintic_kernel p).
  { intros p q A B C. destruct (quintic_cases p) as (P1 & _). destruct (quintic_cases q) as (Q1 & _).
    rewrite P1, Q1 by lra. apply qui1_dec; lra. }
  assert (S2 : forall p q, 1/3 <= p -> p <= q -> q <= 2/3 -> sph_quintic_kernel q <= sph_quintic_kernel p).
  { intros p q A B C. destruct (quintic_cases p) as (_ & P1 & _). destruct (quintic_cases q) as (_ & Q1 & _).
    rewrite P1, Q1 by lra. apply qui2_dec; lra. }
  assert (S3 : forall p q, 2/3 <= p -> p <= q -> q <= 1 -> sph_quintic_kernel q <= sph_quintic_kernel p).
  { intros p q A B C. destruct (quintic_cases p) as (_ & _ & P1 & _).
    destruct (quintic_cases q) as (_ & _ & Q1 & _).
    rewrite P1, Q1 by lra. apply qui3_dec; lra. }
  assert (S4 : forall p q, 1 <= p -> p <= q -> sph_quintic_kernel q <= sph_quintic_kernel p).
  { intros p q A B. destruct (quintic_cases p) as (_ & _ & _ & P1).
    destruct (quintic_cases q) as (_ & _ & _ & Q1).
    rewrite P1, Q1 by lra. lra. }
  assert (T3 : forall p q, 2/3 <= p -> p <= q -> sph_quintic_kernel q <= sph_quintic_kernel p).
  { intros p q A B. destruct (Rle_dec q 1); [apply S3; lra|]. destruct (Rle_dec 1 p); [apply S4; lra|].
    apply Rle_trans with (sph_quintic_kernel 1); [apply S4; lra|apply S3; lra]. }
  assert (T2 : forall p q, 1/3 <= p -> p <= q -> sph_quintic_kernel q <= sph_quintic_kernel p).
  { intros p q A B. destruct (Rle_dec q (2/3)); [apply S2; lra|].
    destruct (Rle_dec (2/3) p); [apply T3; lra|].
    apply Rle_trans with (sph_quintic_kernel (2/3)); [apply T3; lra|apply S2; lra]. }
  intros p q A B. destruct (Rle_dec q (1/3)); [apply S1; lra|].
  destruct (Rle_dec (1/3) p); [apply T2; lra|].
  apply Rle_trans with (sph_quintic_kernel (1/3)); [apply T2; lra|apply S1; lra].
Qed.

Lemma cubic_zero : forall q, 1 <= q -> sph_cubic_kernel q = 0.
Proof. intros q. apply (cubic_cases q). Qed.
Lemma quintic_zero : forall q, 1 <= q -> sph_quintic_kernel q = 0.
Proof. intros q. apply (quintic_cases q). Qed.

Lemma cubic_nonneg : forall q, 0 <= q -> 0 <= sph_cubic_kernel q.
Proof.
  intros q H. destruct (Rle_dec 1 q); [rewrite cubic_zero; lra|].
  rewrite <- (cubic_zero 1) by lra. apply cubic_dec; lra.
Qed.
Lemma quintic_nonneg : forall q, 0 <= q -> 0 <= sph_quintic_kernel q.
Proof.
  intros q H. destruct (Rle_dec 1 q); [rewrite quintic_zero; lra|].
  rewrite <- (quintic_zero 1) by lra. apply quintic_dec; lra.
Qed.

(** ** Continuity *)
(** A function given by two continuous functions left and right of c, agreeing at c. *)
Lemma cont_glue : forall (f g h : R -> R) (c : R),
  (forall x, x <= c -> h x = f x) -> (forall x, c <= x -> h x = g x) ->
  (forall x, x <= c -> continuity_pt f x) -> (forall x, c <= x -> continuity_pt g x) ->
  forall x, continuity_pt h x.
Proof.
  intros f g h c Hf Hg Cf Cg x.
  destruct (Rlt_dec x c).
  - apply (continuity_pt_locally_ext f h (c - x)); [lra| |apply Cf; lra].
    intros y Hy. symmetry. apply Hf. unfold R_dist in Hy. apply Rabs_def2 in Hy. lra.
  - destruct (Rlt_dec c x).
    + apply (continuity_pt_locally_ext g h (x - c)); [lra| |apply Cg; lra].
      intros y Hy. symmetry. apply Hg. unfold R_dist in Hy. apply Rabs_def2 in Hy. lra.
    + assert (x = c) by lra. subst x.
      intros eps He. destruct (Cf c (Rle_refl _) eps He) as (d1 & Hd1 & D1).
      destruct (Cg c (Rle_refl _) eps He) as (d2 & Hd2 & D2).
      exists (Rmin d1 d2). split; [apply Rmin_pos; assumption|].
      intros y (Dy & Hy). simpl in *.
      assert (B1 : R_dist y c < d1) by (eapply Rlt_le_trans; [exact Hy|apply Rmin_l]).
      assert (B2 : R_dist y c < d2) by (eapply Rlt_le_trans; [exact Hy|apply Rmin_r]).
      destruct (Rle_dec y c).
      * rewrite (Hf y), (Hf c) by lra. apply D1. auto.
      * rewrite (Hg y), (Hg c) by lra. apply D2. auto.
Qed.

Lemma ex_derive_cont : forall f x, ex_derive f x -> continuity_pt f x.
Proof.
  intros f x H. apply continuity_pt_filterlim. apply (ex_derive_continuous (V := R_NormedModule)). exact H.
Qed.

Lemma cubic_continuous : forall q, continuity_pt sph_cubic_kernel q.
Proof.
  pose (k2 := fun q => if Rle_dec q (1/2) then cub2 q else sph_cubic_kernel q).
  assert (C2 : forall x, continuity_pt k2 x).
  { apply (cont_glue cub2 (fun _ => 0) k2 1).
    - intros x Hx. unfold k2. destruct (Rle_dec x (1/2)); [reflexivity|].
      apply (cubic_cases x); lra.
    - intros x Hx. unfold k2. destruct (Rle_dec x (1/2)); [lra|]. apply (cubic_cases x); lra.
    - intros x _. apply ex_derive_cont. unfold cub2. auto_derive. exact I.
    - intros x _. apply continuity_pt_const. intros a b. reflexivity. }
  apply (cont_glue cub1 k2 sph_cubic_kernel (1/2)).
  - intros x Hx. apply (cubic_cases x); lra.
  - intros x Hx. unfold k2. destruct (Rle_dec x (1/2)); [|reflexivity].
    apply (cubic_cases x); lra.
  - intros x _. apply ex_derive_cont. unfold cub1. auto_derive. exact I.
  - intros x _. apply C2.
Qed.

Lemma quintic_continuous : forall q, continuity_pt sph_quintic_kernel q.
Proof.
  pose (k3 := fun q => if Rle_dec q (2/3) then qui3 q else sph_quintic_kernel q).
  assert (C3 : forall x, continuity_pt k3 x).
  { apply (cont_glue qui3 (fun _ => 0) k3 1).
    - intros x Hx. unfold k3. destruct (Rle_dec x (2/3)); [reflexivity|].
      apply (quintic_cases x); lra.
    - intros x Hx. unfold k3. destruct (Rle_dec x (2/3)); [lra|]. apply (quintic_cases x); lra.
    - intros x _. apply ex_derive_cont. unfold qui3. auto_derive. exact I.
    - intros x _. apply continuity_pt_const. intros a b. reflexivity. }
  pose (k2 := fun q => if Rle_dec q (1/3) then qui2 q else sph_quintic_kernel q).
  assert (C2 : forall x, continuity_pt k2 x).
  { apply (cont_glue qui2 k3 k2 (2/3)).
    - intros x Hx. unfold k2. destruct (Rle_dec x (1/3)); [reflexivity|].
      apply (quintic_cases x); lra.
    - intros x Hx. unfold k2, k3. destruct (Rle_dec x (1/3)); [lra|].
      destruct (Rle_dec x (2/3)); [|reflexivity]. apply (quintic_cases x); lra.
    - intros x _. apply ex_derive_cont. unfold qui2. auto_derive. exact I.
    - intros x _. apply C3. }
  apply (cont_glue qui1 k2 sph_quintic_kernel (1/3)).
  - intros x Hx. apply (quintic_cases x); lra.
  - intros x Hx. unfold k2. destruct (Rle_dec x (1/3)); [|reflexivity].
    apply (quintic_cases x); lra.
  - intros x _. apply ex_derive_cont. unfold qui1. auto_derive. exact I.
  - intros x _. apply C2.
Qed.

(** ** Normalisation *)
Lemma poly_RInt : forall (F f : R -> R) a b,
  (forall x, is_derive F x (f x)) -> (forall x, continuous f x) -> is_RInt f a b (F b - F a).
Proof.
  intros F f a b HF Hf. apply (is_RInt_derive F f); intros; auto.
Qed.

Lemma ex_derive_continuous' : forall (f : R -> R) x, ex_derive f x -> continuous f x.
Proof. intros. apply (ex_derive_continuous (V := R_NormedModule)). assumption. Qed.

Lemma cubic_norm : is_RInt (fun q => 4 * PI * (sph_cubic_kernel q * q ^ 2)) 0 1 1.
Proof.
  pose proof PI_RGT_0 as HP.
  pose (F1 := fun q => 32 * (q^3/3 - 6*q^5/5 + q^6)).
  pose (F2 := fun q => 64 * (q^3/3 - 3*q^4/4 + 3*q^5/5 - q^6/6)).
  replace 1 with (plus (F1 (1/2) - F1 0) (F2 1 - F2 (1/2))) at 2
    by (unfold F1, F2, plus; simpl; field).
  apply (is_RInt_Chasles (V := R_NormedModule)) with (1/2).
  - apply (is_RInt_ext (V := R_NormedModule) (fun q => 4 * PI * (cub1 q * q ^ 2))).
    { intros x Hx. rewrite Rmin_left, Rmax_right in Hx by lra.
      replace (sph_cubic_kernel x) with (cub1 x); [reflexivity|]. symmetry. apply (cubic_cases x). lra. }
    apply poly_RInt.
    + intros x. unfold F1, cub1. auto_derive; [exact I|]. field. lra.
    + intros x. apply ex_derive_continuous'. unfold cub1. auto_derive. exact I.
  - apply (is_RInt_ext (V := R_NormedModule) (fun q => 4 * PI * (cub2 q * q ^ 2))).
    { intros x Hx. rewrite Rmin_left, Rmax_right in Hx by lra.
      replace (sph_cubic_kernel x) with (cub2 x); [reflexivity|]. symmetry. apply (cubic_cases x). lra. }
    apply poly_RInt.
    + intros x. unfold F2, cub2. auto_derive; [exact I|]. field. lra.
    + intros x. apply ex_derive_continuous'. unfold cub2. auto_derive. exact I.
Qed.

Lemma quintic_norm : is_RInt (fun q => 4 * PI * (sph_quintic_kernel q * q ^ 2)) 0 1 1.
Proof.
  pose proof PI_RGT_0 as HP.
  pose (P5 := fun (c q : R) =>
     c^5*q^3/3 - 5*c^4*3*q^4/4 + 10*c^3*9*q^5/5 - 10*c^2*27*q^6/6 + 5*c*81*q^7/7 - 243*q^8/8).
  pose (F1 := fun q => 9/10 * 6 * (11*q^3/3 - 90*q^5/5 + 405*q^7/7 - 405*q^8/8)).
  pose (F2 := fun q => 9/10 * (P5 3 q - 6 * P5 2 q)).
  pose (F3 := fun q => 9/10 * P5 3 q).
  replace 1 with (plus (plus (F1 (1/3) - F1 0) (F2 (2/3) - F2 (1/3))) (F3 1 - F3 (2/3))) at 2
    by (unfold F1, F2, F3, P5, plus; simpl; field).
  apply (is_RInt_Chasles (V := R_NormedModule)) with (2/3);
    [apply (is_RInt_Chasles (V := R_NormedModule)) with (1/3)|].
  - apply (is_RInt_ext (V := R_NormedModule) (fun q => 4 * PI * (qui1 q * q ^ 2))).
    { intros x Hx. rewrite Rmin_left, Rmax_right in Hx by lra.
      replace (sph_quintic_kernel x) with (qui1 x); [reflexivity|]. symmetry. apply (quintic_cases x). lra. }
    apply poly_RInt.
    + intros x. unfold F1, qui1. auto_derive; [exact I|]. field. lra.
    + intros x. apply ex_derive_continuous'. unfold qui1. auto_derive. exact I.
  - apply (is_RInt_ext (V := R_NormedModule) (fun q => 4 * PI * (qui2 q * q ^ 2))).
    { intros x Hx. rewrite Rmin_left, Rmax_right in Hx by lra.
      replace (sph_quintic_kernel x) with (qui2 x); [reflexivity|]. symmetry. apply (quintic_cases x). lra. }
    apply poly_RInt.
    + intros x. unfold F2, P5, qui2. auto_derive; [exact I|]. field. lra.
    + intros x. apply ex_derive_continuous'. unfold qui2. auto_derive. exact I.
  - apply (is_RInt_ext (V := R_NormedModule) (fun q => 4 * PI * (qui3 q * q ^ 2))).
    { intros x Hx. rewrite Rmin_left, Rmax_right in Hx by lra.
      replace (sph_quintic_kernel x) with (qui3 x); [reflexivity|]. symmetry. apply (quintic_cases x). lra. }
    apply poly_RInt.
    + intros x. unfold F3, P5, qui3. auto_derive; [exact I|]. field. lra.
    + intros x. apply ex_derive_continuous'. unfold qui3. auto_derive. exact I.
Qed.

Lemma tophat_norm : is_RInt (fun q => 4 * PI * (3 / 4 / PI * q ^ 2)) 0 1 1.
Proof.
  pose proof PI_RGT_0 as HP.
  pose (F1 := fun q : R => q^3).
  replace 1 with (F1 1 - F1 0) at 2 by (unfold F1; ring).
  apply poly_RInt.
  - intros x. unfold F1. auto_derive; [exact I|]. field. lra.
  - intros x. apply ex_derive_continuous'. auto_derive. exact I.
Qed.
