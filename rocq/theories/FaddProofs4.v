(** Integer polynomials with real evaluation, and the table of erfcx. *)
From Coq Require Import Reals ZArith Lra Lia.
From Coquelicot Require Import Coquelicot.
From Coq Require Import List.
From Flocq Require Import Core.Raux.
From Verif Require Import FaddTable FaddModel FaddSpec FaddProofs FaddProofs2.
Import ListNotations.
Local Open Scope R_scope.

Fixpoint peval (l : list Z) (t : R) : R :=
  match l with [] => 0 | c :: q => IZR c + t * peval q t end.

Fixpoint zeval (l : list Z) (t : Z) : Z :=
  match l with [] => 0%Z | c :: q => (c + t * zeval q t)%Z end.

Fixpoint padd (l m : list Z) : list Z :=
  match l, m with
  | [], _ => m
  | _, [] => l
  | a :: l', b :: m' => (a + b)%Z :: padd l' m'
  end.

Definition pscale (a : Z) (l : list Z) : list Z := map (Z.mul a) l.

Fixpoint pmul (l m : list Z) : list Z :=
  match l with [] => [] | a :: l' => padd (pscale a m) (0%Z :: pmul l' m) end.

Fixpoint pderiv (l : list Z) : list Z :=
  match l with [] => [] | _ :: q => padd q (0%Z :: pderiv q) end.

Fixpoint norm1 (l : list Z) : Z :=
  match l with [] => 0%Z | c :: q => (Z.abs c + norm1 q)%Z end.

Lemma peval_zeval : forall l t, peval l (IZR t) = IZR (zeval l t).
Proof. induction l as [| c l IH]; intros t; cbn; [reflexivity |]. rewrite IH, plus_IZR, mult_IZR. reflexivity. Qed.

Lemma peval_padd : forall l m t, peval (padd l m) t = peval l t + peval m t.
Proof.
  induction l as [| a l IH]; intros [| b m] t; cbn [padd peval]; try lra.
  rewrite IH, plus_IZR. ring.
Qed.

Lemma peval_pscale : forall a l t, peval (pscale a l) t = IZR a * peval l t.
Proof.
  intros a l t. induction l as [| b l IH]; cbn [pscale map peval]; [ring |].
  change (map (Z.mul a) l) with (pscale a l). rewrite IH, mult_IZR. ring.
Qed.

Lemma peval_pmul : forall l m t, peval (pmul l m) t = peval l t * peval m t.
Proof.
  induction l as [| a l IH]; intros m t; cbn [pmul peval]; [ring |].
  rewrite peval_padd, peval_pscale. cbn [peval]. rewrite IH. ring.
Qed.

Lemma peval_derive : forall l t, is_derive (peval l) t (peval (pderiv l) t).
Proof.
  induction l as [| c l IH]; intros t.
  - cbn [pderiv peval]. apply (is_derive_const 0 t).
  - cbn [pderiv]. rewrite peval_padd. cbn [peval].
    apply is_derive_Reals.
    replace (peval l t + (0 + t * peval (pderiv l) t)) with (0 + (1 * peval l t + t * peval (pderiv l) t)) by ring.
    apply (derivable_pt_lim_plus (fun _ => IZR c) (fun u => u * peval l u)); [apply derivable_pt_lim_const |].
    apply (derivable_pt_lim_mult (fun u => u) (peval l)); [apply derivable_pt_lim_id | apply is_derive_Reals; apply IH].
Qed.

Lemma norm1_nonneg : forall l, (0 <= norm1 l)%Z.
Proof. induction l; cbn; lia. Qed.

Lemma peval_norm : forall l t, Rabs t <= 1 -> Rabs (peval l t) <= IZR (norm1 l).
Proof.
  induction l as [| c l IH]; intros t Ht; cbn [peval norm1]; [rewrite Rabs_R0; lra |].
  apply Rle_trans with (1 := Rabs_triang _ _). rewrite plus_IZR, abs_IZR, Rabs_mult.
  pose proof (IH t Ht). pose proof (Rabs_pos (peval l t)). pose proof (Rabs_pos t). nra.
Qed.

(** ** The rows of erfcx as integers over 10^40 *)
Definition big : Z := (10 ^ 40)%Z.

Definition zc (p : Z * Z) : Z := (fst p * 10 ^ (snd p + 40))%Z.

Definition fine_row (r : list (Z * Z)) : bool := forallb (fun p => Z.leb (- 40) (snd p)) r.

Lemma big_pos : 0 < IZR big.
Proof. apply IZR_lt. reflexivity. Qed.

Lemma lit_zc : forall p, (- 40 <= snd p)%Z -> lit p = IZR (zc p) / IZR big.
Proof.
  intros [m e] H. unfold lit, zc. cbn [fst snd] in *. rewrite mult_IZR.
  assert (E : powerRZ 10 e = IZR (10 ^ (e + 40)) / IZR big).
  { assert (HP : forall n, (0 <= n)%Z -> powerRZ 10 n = IZR (10 ^ n)).
    { intros n Hn. rewrite <- (Z2Nat.id n) by assumption. rewrite <- pow_IZR, pow_powerRZ. reflexivity. }
    unfold big. rewrite <- !HP by lia.
    replace (powerRZ 10 e) with (powerRZ 10 (e + 40 + - (40))) by (f_equal; lia).
    rewrite powerRZ_add, (powerRZ_neg' 10 40) by lra. reflexivity. }
  rewrite E. unfold Rdiv. ring.
Qed.

Lemma horner_peval : forall r t, fine_row r = true -> horner r t = peval (map zc r) t / IZR big.
Proof.
  intros r t. unfold fine_row. induction r as [| p r IH]; intros H; [cbn [horner map peval]; unfold Rdiv; ring |].
  cbn [forallb] in H. apply andb_prop in H. destruct H as [H1 H2]. apply Z.leb_le in H1.
  cbn [map peval]. destruct r as [| q r].
  - cbn [horner map peval]. rewrite lit_zc by assumption. unfold Rdiv. ring.
  - cbn [horner]. cbn [horner] in IH. rewrite IH by assumption. rewrite lit_zc by assumption. unfold Rdiv. ring.
Qed.

Lemma rows_fine : forallb fine_row erfcx_rows = true.
Proof. vm_compute. reflexivity. Qed.

Definition zrow (k : nat) : list Z := map zc (nth k erfcx_rows []).

Lemma row_fine : forall k, fine_row (nth k erfcx_rows []) = true.
Proof.
  intros k. pose proof rows_fine as H. rewrite forallb_forall in H.
  destruct (Nat.lt_ge_cases k (length erfcx_rows)) as [Hk | Hk].
  - apply H. apply nth_In. assumption.
  - rewrite nth_overflow by assumption. reflexivity.
Qed.

Lemma horner_zrow : forall k t, horner (nth k erfcx_rows []) t = peval (zrow k) t / IZR big.
Proof. intros. apply horner_peval. apply row_fine. Qed.

(** ** The residual of erfcx' = 2 x erfcx - 2/sqrt(pi) on the piece k, as a polynomial over 10^40 and 1600 y *)
Definition isp_z : Z := 56418958354775628694807945156 * 10 ^ 11.

Definition upoly (k : Z) : list Z := [(2 * k + 1)%Z; 1%Z].

Definition residual (k : Z) (p : list Z) : list Z :=
  let u := upoly k in
  padd (pscale (-1) (pmul (pderiv p) (pmul u (pmul u u))))
       (padd (pscale (-1) (pmul (padd [1280000%Z] (pscale (-6400) u)) p)) (pscale (1600 * isp_z) u)).

Definition res_bound (k : Z) (p : list Z) : Z := (norm1 (residual k p) / (4 * k * k * (k + 1)) + 1)%Z.

Definition jump (p q : list Z) : Z := Z.abs (zeval q (-1) - zeval p 1).

Fixpoint chain (n k : nat) (D : Z) : Z :=
  match n with
  | O => D
  | S m => chain m (S k) (D + jump (zrow k) (zrow (S k)) + res_bound (Z.of_nat (S k)) (zrow (S k)))%Z
  end.

Lemma chain_mono : forall n k D, (D <= chain n k D)%Z.
Proof.
  induction n as [| n IH]; intros k D; cbn [chain]; [lia |].
  eapply Z.le_trans; [| apply IH].
  assert (0 <= jump (zrow k) (zrow (S k)))%Z by apply Z.abs_nonneg.
  assert (0 <= res_bound (Z.of_nat (S k)) (zrow (S k)))%Z; [| lia].
  unfold res_bound. pose proof (norm1_nonneg (residual (Z.of_nat (S k)) (zrow (S k)))).
  assert (0 <= norm1 (residual (Z.of_nat (S k)) (zrow (S k))) /
               (4 * Z.of_nat (S k) * Z.of_nat (S k) * (Z.of_nat (S k) + 1)))%Z; [| lia].
  apply Z.div_pos; lia.
Qed.

Definition D7 : Z := (10 ^ 23 + res_bound 7 (zrow 7))%Z.

Lemma chain_value : (chain 92 7 D7 + Z.abs (big - zeval (zrow 99) 1) <= 9 * 10 ^ 27)%Z.
Proof. vm_compute. discriminate. Qed.
