(** Proofs about the column density of a particle in floating point: the witnesses. *)
From Coq Require Import ZArith List Bool Lia Lra Reals Psatz.
From Flocq Require Import Core.
From Verif Require Import FloatModel FloatSpec FloatProofs FloatProofs2 FloatProofs3 FsearchModel FsearchProofs FsearchProofs2 FcolModel FcolSpec FcolProofs FcolProofs2 FcolProofs3.
Import ListNotations.
Local Open Scope R_scope.

Lemma s32_tie : s32 (4097 / 4096 * (4097 / 4096)) = 2049 / 2048.
Proof.
  unfold s32. rewrite (rnd_at Single _ 1); [|cbn; lia|].
  - change (- (1 - bits Single))%Z with 23%Z. change (1 - bits Single)%Z with (-23)%Z.
    change (bpow radix2 23) with 8388608. change (bpow radix2 (-23)) with (/ 8388608).
    replace (4097 / 4096 * (4097 / 4096) * 8388608) with (IZR 8392704 + / 2) by lra. rewrite tie_even by reflexivity. lra.
  - change (bpow radix2 (1 - 1)) with 1. change (bpow radix2 1) with 2. rewrite Rabs_pos_eq; lra.
Qed.

(** A line through the sphere along which nothing is added. *)
Lemma lost_aux : forall L v n, 4 <= L -> sizes L v n ->
  exists h dr2, is_float Single h /\ is_float Double dr2 /\ 0 < h /\ 2 * h <= L /\ 0 <= dr2 /\ h / 2 ^ 13 < half_chord h dr2 /\
    forall dens pos a, add_colden_particle L v (Z.of_nat n) dr2 dens pos h a = Some a.
Proof.
  intros L v n HL SZ. exists (4097 / 4096), (2049 / 2048).
  split; [exists 4097%Z, (-12)%Z; split; [change (powerRZ 2 (-12)) with (/ 2 ^ 12); replace (2 ^ 12) with 4096 by (cbv [pow]; lra); lra|cbn; lia]|].
  split; [exists 2049%Z, (-11)%Z; split; [change (powerRZ 2 (-11)) with (/ 2 ^ 11); replace (2 ^ 11) with 2048 by (cbv [pow]; lra); lra|cbn; lia]|].
  split; [lra|]. split; [lra|]. split; [lra|]. split.
  - unfold half_chord. replace (4097 / 4096 * (4097 / 4096) - 2049 / 2048) with (/ 4096 * / 4096) by lra.
    rewrite Rmax_right by lra. rewrite sqrt_square by lra. replace (2 ^ 13) with 8192 by (cbv [pow]; lra). lra.
  - intros dens pos a. unfold add_colden_particle. rewrite s32_tie. replace (2049 / 2048 - 2049 / 2048) with 0 by lra.
    unfold s64. rewrite rnd_0. destruct (leb_spec 0 0); [reflexivity|lra].
Qed.

Lemma pow_float : forall p k, is_float p (2 ^ k).
Proof.
  intros p k. exists 1%Z, (Z.of_nat k). split; [rewrite <- pow_powerRZ; ring|]. destruct p; cbn; lia.
Qed.

Lemma s_pow : forall p k, rnd p (2 ^ k) = 2 ^ k.
Proof. intros p k. apply rnd_id, format_is_float, pow_float. Qed.

(** A smoothing length beyond the box: the number of a pixel does not fit. *)
Lemma overflow_aux : exists L v n dr2 dens pos h a, sizes L v n /\ 0 <= pos <= L /\ is_float Single h /\ / 2 ^ 40 <= h /\ 0 <= dr2 /\
  is_float Single dens /\ 0 < dens /\ length a = n /\ List.Forall (fun x => x = 0) a /\
  add_colden_particle L v (Z.of_nat n) dr2 dens pos h a = None.
Proof.
  exists 1, 1, 1%nat, 0, 1, 0, (2 ^ 40), [0].
  assert (S1 : / 2 ^ 40 <= 1) by (apply Rle_trans with (/ 2 ^ 0); [apply pinv_le; lia|rewrite pow_O; lra]).
  assert (T : 1 <= 2 ^ 40) by (apply pow_R1_Rle; lra).
  assert (F1 : is_float Single 1) by (exact (pow_float Single 0)).
  split; [unfold sizes; split; [lra|]; split; [lra|]; split; [lia|apply (Nat.pow_le_mono_r 2 0 20); lia]|]. split; [lra|]. split; [apply pow_float|]. split; [lra|]. split; [lra|].
  split; [exact F1|]. split; [lra|]. split; [reflexivity|]. split; [constructor; [reflexivity|constructor]|].
  unfold add_colden_particle, s32. rewrite <- pow_add, s_pow, Rminus_0_r. unfold s64. rewrite s_pow.
  pose proof (pow_lt 2 (40 + 40) ltac:(lra)) as P. destruct (leb_spec (2 ^ (40 + 40)) 0); [lra|].
  replace (sqrt (2 ^ (40 + 40))) with (2 ^ 40) by (rewrite pow_add; symmetry; apply sqrt_square; lra).
  unfold boxtokpc, s64. rewrite !s_pow. change (IZR (Z.of_nat 1)) with 1. rewrite Rmult_1_l.
  pose proof (s_pow Double 0) as O. rewrite pow_O in O. rewrite O. replace (1 / 1) with 1 by lra. rewrite O. replace (1 / 1) with 1 by lra. rewrite O.
  unfold Rminus at 1. rewrite Rplus_0_l, rnd_opp, s_pow. replace (- 2 ^ 40 / 1) with (- 2 ^ 40) by lra. rewrite rnd_opp, s_pow.
  replace (- 2 ^ 40) with (IZR (- 2 ^ 40)).
  - rewrite Zfloor_IZR. unfold to_int. rewrite Ztrunc_IZR. reflexivity.
  - rewrite opp_IZR. f_equal. rewrite <- (bpow_pow 40). reflexivity.
Qed.
