(** C126: the column density of a particle in floating point. *)
From Coq Require Import ZArith List Bool Reals Lra Lia.
From Verif Require Import FloatModel FloatSpec FloatProofs FsearchModel FcolModel FcolSpec FcolProofs FcolProofs2 FcolProofs3 FcolProofs4.
Import ListNotations.
Local Open Scope R_scope.

Lemma forall_gooda : forall a, List.Forall (fun x => is_float Double x /\ 0 <= x) a <-> gooda a.
Proof. intros a. split; intros H; eapply List.Forall_impl; try exact H; cbn; intros x (F & P); (split; [apply format_is_float; exact F|exact P]). Qed.

(** Added to any array of pixels, what the array gains in total is the column density of the sphere, up to a part in 2^12 of the
    smoothing length, due to the square of the smoothing length in single precision, and rounding of double precision. *)
Theorem C126_column : forall L velfac n dr2 dens pos h a, sizes L velfac n -> 0 <= pos <= L -> / 2 ^ 40 <= h -> 2 * h <= L -> 0 <= dr2 ->
  is_float Single dens -> 0 < dens -> length a = n -> List.Forall (fun x => is_float Double x /\ 0 <= x) a ->
  exists b, add_colden_particle L velfac (Z.of_nat n) dr2 dens pos h a = Some b /\
    Rabs (total b - total a - column dens h dr2) <= dens * h / 2 ^ 12 + (INR n + 4) * (total a + dens * L) / 2 ^ 45.
Proof.
  intros L velfac n dr2 dens pos h a A B C D E F G H I. apply forall_gooda in I.
  destruct (add_colden_spec L velfac n dr2 dens pos h a A B C D E F G H I) as (b & X & _ & _ & _ & _ & Y). exists b. auto.
Qed.
Print Assumptions C126_column.

(** No pixel loses anything, and only those change which the chord comes close to. *)
Theorem C126_pixels : forall L velfac n dr2 dens pos h a, sizes L velfac n -> 0 <= pos <= L -> / 2 ^ 40 <= h -> 2 * h <= L -> 0 <= dr2 ->
  is_float Single dens -> 0 < dens -> length a = n -> List.Forall (fun x => is_float Double x /\ 0 <= x) a ->
  exists b, add_colden_particle L velfac (Z.of_nat n) dr2 dens pos h a = Some b /\ length b = n /\
    List.Forall (fun x => is_float Double x /\ 0 <= x) b /\
    (forall j, nth j a 0 <= nth j b 0) /\
    (forall j, nth j b 0 <> nth j a 0 ->
       pixel_meets L n (h / 2 ^ 11 + L / 2 ^ 45) (pos - half_chord h dr2) (pos + half_chord h dr2) j).
Proof.
  intros L velfac n dr2 dens pos h a A B C D E F G H I. apply forall_gooda in I.
  destruct (add_colden_spec L velfac n dr2 dens pos h a A B C D E F G H I) as (b & X & Y & Z & U & V & _). exists b.
  split; [exact X|]. split; [exact Y|]. split; [apply forall_gooda; exact Z|]. auto.
Qed.
Print Assumptions C126_pixels.

(** The part in 2^12 cannot be made smaller than a part in 2^13: in every box some particle adds nothing along such a chord. *)
Theorem C126_lost_refuted : forall L velfac n, 4 <= L -> sizes L velfac n ->
  exists h dr2, is_float Single h /\ is_float Double dr2 /\ 0 < h /\ 2 * h <= L /\ 0 <= dr2 /\ h / 2 ^ 13 < half_chord h dr2 /\
    forall dens pos a, add_colden_particle L velfac (Z.of_nat n) dr2 dens pos h a = Some a.
Proof. exact lost_aux. Qed.
Print Assumptions C126_lost_refuted.

(** Without a bound on the smoothing length the number of a pixel may not fit an int, and the conversion is undefined. *)
Theorem C126_overflow_refuted : exists L velfac n dr2 dens pos h a, sizes L velfac n /\ 0 <= pos <= L /\ is_float Single h /\ / 2 ^ 40 <= h /\ 0 <= dr2 /\
  is_float Single dens /\ 0 < dens /\ length a = n /\ List.Forall (fun x => x = 0) a /\
  add_colden_particle L velfac (Z.of_nat n) dr2 dens pos h a = None.
Proof. exact overflow_aux. Qed.
Print Assumptions C126_overflow_refuted.

(** A particle at the edge of a box of 25000 with 100 pixels: it reaches both ends of the line. *)
Example C126_example : exists b, add_colden_particle 25000 (/ 8) (Z.of_nat 100) 0 1 0 1000 (repeat 0 100) = Some b /\
  Rabs (total b - 1500 / PI) <= 1 / 2 + 1 / 10000.
Proof.
  assert (P : / 2 ^ 40 <= / 8) by (replace (/ 8) with (/ 2 ^ 3) by (cbn [pow]; lra); apply pinv_le; lia).
  assert (Q : 2 ^ 15 <= 2 ^ 40) by (apply Rle_pow; [lra|lia]). replace (2 ^ 15) with 32768 in Q by (cbv [pow]; lra).
  destruct (C126_column 25000 (/ 8) 100 0 1 0 1000 (repeat 0 100)) as (b & E & N).
  - unfold sizes. split; [lra|]. split; [lra|]. split; [lia|]. apply Nat.le_trans with (2 ^ 7)%nat; [apply Nat.leb_le; reflexivity|apply Nat.pow_le_mono_r; lia].
  - lra.
  - lra.
  - lra.
  - lra.
  - exists 1%Z, 0%Z. split; [cbn; ring|cbn; lia].
  - lra.
  - reflexivity.
  - apply List.Forall_forall. intros x I. apply repeat_spec in I. subst x. split; [|lra]. exists 0%Z, 0%Z. split; [cbn; ring|cbn; lia].
  - exists b. split; [exact E|].
    assert (T : forall k, total (repeat 0 k) = 0) by (induction k as [|k IH]; cbn [repeat total]; [|rewrite IH]; lra). rewrite T in N.
    unfold column, half_chord in N. rewrite !Rminus_0_r, Rmax_right, sqrt_square in N by lra.
    replace (1 * (3 / (4 * PI)) * (2 * 1000)) with (1500 / PI) in N by (field; apply PI_neq0).
    replace (2 ^ 12) with 4096 in N by (cbv [pow]; lra). replace (2 ^ 45) with 35184372088832 in N by (cbv [pow]; lra).
    replace (INR 100) with 100 in N by (cbv [INR]; lra).
    lra.
Qed.
