(** The trapezium and midpoint rules for exp(-x^2) with their first correction, panel by panel. *)
From Coq Require Import Reals ZArith Lra Lia.
From Coquelicot Require Import Coquelicot.
From Coq Require Import List.
From Flocq Require Import Core.Raux.
From Verif Require Import IoniseProofs StrengthProofs.
Import ListNotations.
Local Open Scope R_scope.

Lemma growth : forall (f df : R -> R) K (k : nat) t, 0 <= t -> f 0 = 0 ->
  (forall s, 0 <= s <= t -> is_derive f s (df s)) ->
  (forall s, 0 <= s <= t -> Rabs (df s) <= K * s ^ k) ->
  Rabs (f t) <= K * t ^ (S k) / INR (S k).
Proof.
  intros f df K k t Ht F0 D B.
  assert (HK : INR (S k) <> 0) by (apply not_0_INR; discriminate).
  assert (P : forall s, is_derive (fun s => K * s ^ (S k) / INR (S k)) s (K * s ^ k)).
  { intros s. auto_derive; [exact I |]. simpl pred. change (match k with O => 1 | S _ => INR k + 1 end) with (INR (S k)).
    field. assumption. }
  assert (Z : K * 0 ^ (S k) / INR (S k) = 0) by (rewrite pow_ne_zero by discriminate; unfold Rdiv; ring).
  apply Rabs_le. split.
  - assert (H : (fun s => K * s ^ (S k) / INR (S k) + f s) 0 <= (fun s => K * s ^ (S k) / INR (S k) + f s) t).
    { apply (incr (fun s => K * s ^ (S k) / INR (S k) + f s) (fun s => K * s ^ k + df s)); [assumption | |].
      - intros s Hs. apply (is_derive_plus (fun s => K * s ^ (S k) / INR (S k)) f); [apply P | apply D, Hs].
      - intros s Hs. specialize (B s Hs). apply Rabs_le_between in B. lra. }
    cbv beta in H. rewrite Z, F0 in H. lra.
  - assert (H : (fun s => K * s ^ (S k) / INR (S k) - f s) 0 <= (fun s => K * s ^ (S k) / INR (S k) - f s) t).
    { apply (incr (fun s => K * s ^ (S k) / INR (S k) - f s) (fun s => K * s ^ k - df s)); [assumption | |].
      - intros s Hs. apply (is_derive_minus (fun s => K * s ^ (S k) / INR (S k)) f); [apply P | apply D, Hs].
      - intros s Hs. specialize (B s Hs). apply Rabs_le_between in B. lra. }
    cbv beta in H. rewrite Z, F0 in H. lra.
Qed.

Definition g1 (u : R) : R := - 2 * u * ge u.
Definition g2 (u : R) : R := (4 * u * u - 2) * ge u.
Definition g3 (u : R) : R := (12 * u - 8 * u * u * u) * ge u.
Definition g4 (u : R) : R := (16 * u * u * u * u - 48 * u * u + 12) * ge u.
(** A function which grows at least as fast as g3 moves. *)
Definition vv (u : R) : R := 41 / 2 * erf0 u - (8 * u * u * u + 17 / 2 * u) * ge u.

Lemma ge_derive : forall u, is_derive ge u (g1 u).
Proof. intros u. unfold g1, ge. auto_derive; [exact I | ring]. Qed.
Lemma g1_derive : forall u, is_derive g1 u (g2 u).
Proof. intros u. unfold g1, g2, ge. auto_derive; [exact I | ring]. Qed.
Lemma g2_derive : forall u, is_derive g2 u (g3 u).
Proof. intros u. unfold g2, g3, ge. auto_derive; [exact I | ring]. Qed.
Lemma g3_derive : forall u, is_derive g3 u (g4 u).
Proof. intros u. unfold g3, g4, ge. auto_derive; [exact I | ring]. Qed.
Lemma vv_derive : forall u, is_derive vv u ((16 * u * u * u * u - 7 * u * u + 12) * ge u).
Proof.
  intros u. unfold vv, ge. auto_derive; [exists (ge u); apply erf0_derive |].
  replace (Derive (fun x => erf0 x) u) with (ge u) by (symmetry; apply is_derive_unique, erf0_derive).
  unfold ge. field.
Qed.

Lemma g4_below : forall u, Rabs (g4 u) <= (16 * u * u * u * u - 7 * u * u + 12) * ge u.
Proof.
  intros u. unfold g4. rewrite Rabs_mult, (Rabs_right (ge u)) by (left; apply ge_pos).
  apply Rmult_le_compat_r; [left; apply ge_pos |]. apply Rabs_le. set (q := u * u).
  replace (16 * u * u * u * u) with (16 * q * q) by (unfold q; ring).
  replace (48 * u * u) with (48 * q) by (unfold q; ring). replace (7 * u * u) with (7 * q) by (unfold q; ring).
  assert (0 <= q) by (unfold q; nra). split; [| lra].
  assert (0 <= (64 * q - 55) * (64 * q - 55)) by apply Rle_0_sqr. nra.
Qed.

Lemma g3_moves : forall x y, x <= y -> Rabs (g3 y - g3 x) <= vv y - vv x.
Proof.
  intros x y H. apply Rabs_le. split.
  - assert (A : (fun u => vv u + g3 u) x <= (fun u => vv u + g3 u) y).
    { apply (incr (fun u => vv u + g3 u) (fun u => (16 * u * u * u * u - 7 * u * u + 12) * ge u + g4 u)); [assumption | |].
      - intros s _. apply (is_derive_plus vv g3); [apply vv_derive | apply g3_derive].
      - intros s _. pose proof (g4_below s) as B. apply Rabs_le_between in B. lra. }
    cbv beta in A. lra.
  - assert (A : (fun u => vv u - g3 u) x <= (fun u => vv u - g3 u) y).
    { apply (incr (fun u => vv u - g3 u) (fun u => (16 * u * u * u * u - 7 * u * u + 12) * ge u - g4 u)); [assumption | |].
      - intros s _. apply (is_derive_minus vv g3); [apply vv_derive | apply g3_derive].
      - intros s _. pose proof (g4_below s) as B. apply Rabs_le_between in B. lra. }
    cbv beta in A. lra.
Qed.

Lemma vv_incr : forall x y, x <= y -> vv x <= vv y.
Proof. intros x y H. pose proof (g3_moves x y H). pose proof (Rabs_pos (g3 y - g3 x)). lra. Qed.

Section Panel.
Variables c t : R.
Hypothesis Ht : 0 <= t.
Let D := vv (c + t) - vv (c - t).

Lemma g3_panel : forall s, 0 <= s <= t -> Rabs (g3 (c + s) - g3 (c - s)) <= D.
Proof.
  intros s Hs. apply Rle_trans with (vv (c + s) - vv (c - s)); [apply g3_moves; lra |].
  unfold D. pose proof (vv_incr (c + s) (c + t) ltac:(lra)). pose proof (vv_incr (c - t) (c - s) ltac:(lra)). lra.
Qed.

Definition psi (s : R) : R := s * (g2 (c + s) + g2 (c - s)) - (g1 (c + s) - g1 (c - s)).

Lemma psi_small : forall s, 0 <= s <= t -> Rabs (psi s) <= D * s ^ 2 / 2.
Proof.
  intros s Hs. replace 2 with (INR 2) at 2 by (simpl; lra).
  apply (growth psi (fun s => s * (g3 (c + s) - g3 (c - s))) D 1 s); [lra | | |].
  - unfold psi, g1, g2. replace (c + 0) with c by ring. replace (c - 0) with c by ring. ring.
  - intros x _. unfold psi, g1, g2, g3, ge, Rminus. auto_derive; [exact I | ring].
  - intros x Hx. rewrite Rabs_mult, (Rabs_right x), pow_1 by lra. rewrite Rmult_comm.
    apply Rmult_le_compat_r; [lra |]. apply g3_panel. lra.
Qed.

(** One panel of the trapezium rule. *)
Lemma trap_panel :
  Rabs (t * (ge (c - t) + ge (c + t)) - (erf0 (c + t) - erf0 (c - t)) - t ^ 2 / 3 * (g1 (c + t) - g1 (c - t)))
  <= D * t ^ 4 / 24.
Proof.
  set (phi := fun s => s * (ge (c - s) + ge (c + s)) - (erf0 (c + s) - erf0 (c - s))
                       - s ^ 2 / 3 * (g1 (c + s) - g1 (c - s))).
  change (Rabs (phi t) <= D * t ^ 4 / 24).
  replace (D * t ^ 4 / 24) with (D / 6 * t ^ 4 / INR 4) by (simpl; field).
  apply (growth phi (fun s => - (s / 3) * psi s) (D / 6) 3 t); [assumption | | |].
  - unfold phi, g1. replace (c + 0) with c by ring. replace (c - 0) with c by ring. field.
  - intros x _. unfold phi, psi, g1, g2, ge.
    auto_derive; [repeat match goal with |- _ /\ _ => split | |- True => exact I | |- ex_derive _ ?y => exists (ge y); apply erf0_derive end |].
    replace (Derive (fun x => erf0 x) (c + x)) with (ge (c + x)) by (symmetry; apply is_derive_unique, erf0_derive).
    replace (Derive (fun x => erf0 x) (c + - x)) with (ge (c + - x)) by (symmetry; apply is_derive_unique, erf0_derive).
    unfold ge, Rminus. field.
  - intros x Hx. pose proof (psi_small x Hx) as P.
    rewrite Rabs_mult, Rabs_Ropp, (Rabs_right (x / 3)) by lra.
    apply Rle_trans with (x / 3 * (D * x ^ 2 / 2)); [apply Rmult_le_compat_l; lra |]. right. field.
Qed.

(** One panel of the midpoint rule. *)
Lemma mid_panel :
  Rabs (2 * t * ge c - (erf0 (c + t) - erf0 (c - t)) + t ^ 2 / 6 * (g1 (c + t) - g1 (c - t)))
  <= D * t ^ 4 / 24.
Proof.
  set (chi := fun s => 2 * ge c - (ge (c + s) + ge (c - s)) + s / 3 * (g1 (c + s) - g1 (c - s))
                       + s ^ 2 / 6 * (g2 (c + s) + g2 (c - s))).
  assert (HC : forall s, 0 <= s <= t -> Rabs (chi s) <= D / 6 * s ^ 3).
  { intros s Hs. replace (D / 6 * s ^ 3) with (D / 2 * s ^ 3 / INR 3) by (simpl; field).
    apply (growth chi (fun s => 2 / 3 * psi s + s ^ 2 / 6 * (g3 (c + s) - g3 (c - s))) (D / 2) 2 s); [lra | | |].
    - unfold chi, g1, g2. replace (c + 0) with c by ring. replace (c - 0) with c by ring. field.
    - intros x _. unfold chi, psi, g1, g2, g3, ge. auto_derive; [exact I |]. unfold Rminus; field.
    - intros x Hx. pose proof (psi_small x ltac:(lra)) as P. pose proof (g3_panel x ltac:(lra)) as Q.
      apply Rle_trans with (Rabs (2 / 3 * psi x) + Rabs (x ^ 2 / 6 * (g3 (c + x) - g3 (c - x)))); [apply Rabs_triang |].
      rewrite !Rabs_mult, (Rabs_right (2 / 3)), (Rabs_right (x ^ 2 / 6)) by nra.
      assert (x ^ 2 / 6 * Rabs (g3 (c + x) - g3 (c - x)) <= x ^ 2 / 6 * D) by (apply Rmult_le_compat_l; nra). nra. }
  set (phi := fun s => 2 * s * ge c - (erf0 (c + s) - erf0 (c - s)) + s ^ 2 / 6 * (g1 (c + s) - g1 (c - s))).
  change (Rabs (phi t) <= D * t ^ 4 / 24).
  replace (D * t ^ 4 / 24) with (D / 6 * t ^ 4 / INR 4) by (simpl; field).
  apply (growth phi chi (D / 6) 3 t); [assumption | | |].
  - unfold phi, g1. replace (c + 0) with c by ring. replace (c - 0) with c by ring. field.
  - intros x _. unfold phi, chi, g1, g2, ge.
    auto_derive; [repeat match goal with |- _ /\ _ => split | |- True => exact I | |- ex_derive _ ?y => exists (ge y); apply erf0_derive end |].
    replace (Derive (fun x => erf0 x) (c + x)) with (ge (c + x)) by (symmetry; apply is_derive_unique, erf0_derive).
    replace (Derive (fun x => erf0 x) (c + - x)) with (ge (c + - x)) by (symmetry; apply is_derive_unique, erf0_derive).
    unfold ge, Rminus. field.
  - exact HC.
Qed.
End Panel.
