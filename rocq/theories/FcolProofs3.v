(** Proofs about the column density of a particle in floating point: the loop over pixels. *)
From Coq Require Import ZArith List Bool Lia Lra Reals Psatz.
From Flocq Require Import Core.Raux Core.Generic_fmt.
From Verif Require Import FloatModel FloatSpec FloatProofs FloatProofs3 FsearchModel FsearchProofs FsearchProofs2 FcolModel FcolSpec FcolProofs FcolProofs2.
Import ListNotations.
Local Open Scope R_scope.

Definition gooda (a : list R) : Prop := List.Forall (fun x => format Double x /\ 0 <= x) a.

Lemma total_nonneg : forall a, gooda a -> 0 <= total a.
Proof. induction 1 as [|x a (_ & P) _ IH]; cbn [total]; lra. Qed.

Lemma nth_le_total : forall a, gooda a -> forall j, nth j a 0 <= total a.
Proof.
  induction 1 as [|x a (_ & P) G IH]; intros j; [destruct j; cbn; lra|]. pose proof (total_nonneg a G).
  destruct j as [|j]; cbn [nth total]; [lra|]. specialize (IH j). lra.
Qed.

Lemma good_nth : forall a, gooda a -> forall j, format Double (nth j a 0) /\ 0 <= nth j a 0.
Proof.
  induction 1 as [|x a P G IH]; intros j; [destruct j; cbn; (split; [apply format_0|lra])|]. destruct j; cbn [nth]; [exact P|apply IH].
Qed.

Lemma add_nth_spec : forall j v a, (j < length a)%nat -> gooda a -> format Double v -> 0 <= v ->
  exists a', add_nth j v a = Some a' /\ length a' = length a /\ gooda a' /\
    (forall i, nth i a' 0 = if Nat.eqb i j then s64 (nth j a 0 + v) else nth i a 0) /\
    total a' = total a - nth j a 0 + s64 (nth j a 0 + v).
Proof.
  induction j as [|j IH]; intros v [|x a] H G F P; cbn [length] in H; try lia.
  - cbn [add_nth]. eexists. split; [reflexivity|]. inversion G as [|? ? (X1 & X2) G' ]; subst. split; [reflexivity|]. split; [|split].
    + constructor; [|exact G']. split; [apply rnd_format|]. apply rnd_nonneg. lra.
    + intros [|i]; reflexivity.
    + cbn [total nth]. ring.
  - cbn [add_nth]. inversion G as [|? ? X G' ]; subst. destruct (IH v a ltac:(lia) G' F P) as (a' & -> & B & C & D & E).
    eexists. split; [reflexivity|]. split; [cbn [length]; lia|]. split; [constructor; assumption|]. split.
    + intros [|i]; cbn [nth Nat.eqb]; [reflexivity|apply D].
    + cbn [total nth]. lra.
Qed.

Lemma wrap_mod : forall z n, (0 < n)%Z -> wrap z n = (z mod n)%Z.
Proof.
  intros z n Hn. unfold wrap.
  pose proof (Z.rem_bound_abs z n ltac:(lia)) as B.
  pose proof (Z.quot_rem z n ltac:(lia)) as Q.
  destruct (Z.ltb_spec (Z.rem z n) 0).
  - apply Z.mod_unique with (q := (Z.quot z n - 1)%Z); lia.
  - apply Z.mod_unique with (q := Z.quot z n); lia.
Qed.

Section Loop.

Variables (L v : R) (n : nat) (dx pos zr dens : R).
Hypothesis SZ : sizes L v n.
Hypothesis DX : Rabs (dx - L / INR n) <= L / INR n / 1125899906842624.
Hypothesis POS : 0 <= pos <= L.
Hypothesis ZR : 0 <= zr <= L.
Hypothesis DF : is_float Single dens.
Hypothesis DP : 0 < dens.

Let c (z : Z) : R := contribution dx pos zr dens z.

Fixpoint csum (left : nat) (z : Z) : R := match left with O => 0 | S l => c z + csum l (z + 1) end.

Definition in_reach (left : nat) (z : Z) : Prop := forall k, (k < left)%nat -> (Z.abs (z + Z.of_nat k) <= 3 * Z.of_nat n)%Z.

Lemma reach_S : forall l z, in_reach (S l) z -> (Z.abs z <= 3 * Z.of_nat n)%Z /\ in_reach l (z + 1).
Proof.
  intros l z H. split; [specialize (H 0%nat ltac:(lia)); rewrite Z.add_0_r in H; exact H|].
  intros k K. specialize (H (S k) ltac:(lia)). replace (z + 1 + Z.of_nat k)%Z with (z + Z.of_nat (S k))%Z by lia. exact H.
Qed.

Lemma csum_nonneg : forall l z, in_reach l z -> 0 <= csum l z.
Proof.
  induction l as [|l IH]; intros z H; cbn [csum]; [lra|]. apply reach_S in H as (A & B). specialize (IH _ B).
  destruct (contribution_near L v n dx pos zr dens SZ DX POS ZR DF DP z A) as (P & _). fold (c z) in P. lra.
Qed.

Lemma csum_near : forall l z, in_reach l z ->
  Rabs (csum l z - dens * kappa * (clip zr (g dx pos (z + Z.of_nat l)) - clip zr (g dx pos z))) <= INR l * (dens * L / 70368744177664).
Proof.
  induction l as [|l IH]; intros z H.
  - cbn [csum INR]. rewrite Z.add_0_r. replace (0 - _) with 0 by ring. rewrite Rabs_R0. lra.
  - apply reach_S in H as (A & B). specialize (IH _ B). cbn [csum]. rewrite S_INR.
    destruct (contribution_near L v n dx pos zr dens SZ DX POS ZR DF DP z A) as (_ & _ & N & _). fold (c z) in N.
    replace (z + Z.of_nat (S l))%Z with (z + 1 + Z.of_nat l)%Z by lia.
    set (x := clip zr (g dx pos (z + 1))) in *. set (y := clip zr (g dx pos (z + 1 + Z.of_nat l))) in *. set (w := clip zr (g dx pos z)) in *.
    replace (c z + csum l (z + 1) - dens * kappa * (y - w)) with ((c z - dens * kappa * (x - w)) + (csum l (z + 1) - dens * kappa * (y - x))) by ring.
    eapply Rle_trans; [apply Rabs_triang|]. lra.
Qed.

Lemma loop_spec : forall W, 0 <= W -> forall l z a, in_reach l z -> length a = n -> gooda a ->
  total a + csum l z + INR l * (W / 2251799813685248) <= 2 * W ->
  exists b, colden_loop (Z.of_nat n) dx pos zr dens l z a = Some b /\ length b = n /\ gooda b /\
    (forall j, nth j a 0 <= nth j b 0) /\
    (forall j, nth j b 0 <> nth j a 0 ->
       exists k, (k < l)%nat /\ Z.of_nat j = ((z + Z.of_nat k) mod Z.of_nat n)%Z /\ c (z + Z.of_nat k) <> 0) /\
    Rabs (total b - total a - csum l z) <= INR l * (W / 2251799813685248).
Proof.
  intros W WP. induction l as [|l IH]; intros z a RE LA GA BD.
  - exists a. split; [reflexivity|]. split; [exact LA|]. split; [exact GA|]. split; [intros; lra|]. split; [intros j N; contradiction|].
    cbn [csum INR]. replace (total a - total a - 0) with 0 by ring. rewrite Rabs_R0. lra.
  - pose proof RE as RE'. apply reach_S in RE' as (A & B).
    destruct (contribution_near L v n dx pos zr dens SZ DX POS ZR DF DP z A) as (CP & CF & _). fold (c z) in CP, CF.
    assert (NP : (0 < Z.of_nat n)%Z) by (destruct SZ as (_ & _ & Q & _); lia).
    pose proof (Z.mod_pos_bound z _ NP) as MB. cbn [colden_loop]. rewrite wrap_mod by exact NP. unfold add_at.
    destruct (Z.ltb_spec (z mod Z.of_nat n) 0); [lia|]. set (j0 := Z.to_nat (z mod Z.of_nat n)).
    destruct (add_nth_spec j0 (c z) a ltac:(unfold j0; lia) GA CF CP) as (a' & E1 & E2 & E3 & E4 & E5).
    fold (c z). rewrite E1.
    destruct (good_nth a GA j0) as (NF & N0). pose proof (nth_le_total a GA j0) as NT.
    pose proof (rnd_sum Double _ _ NF CF N0 CP) as RS. fold (s64 (nth j0 a 0 + c z)) in RS. rewrite unit_double in RS.
    assert (MONO : nth j0 a 0 <= s64 (nth j0 a 0 + c z)).
    { rewrite <- (rnd_id Double (nth j0 a 0) NF) at 1. apply rnd_le. lra. }
    pose proof (csum_nonneg l (z + 1) B) as CN. cbn [csum] in BD |- *. rewrite S_INR in BD |- *. pose proof (pos_INR l) as IL.
    assert (WL : 0 <= INR l * (W / 2251799813685248)) by (apply Rmult_le_pos; lra).
    set (x := nth j0 a 0) in *. set (s := s64 (x + c z)) in *.
    destruct (IH (z + 1)%Z a' B ltac:(congruence) E3) as (b & F1 & F2 & F3 & F4 & F5 & F6); [lra|].
    exists b. split; [exact F1|]. split; [exact F2|]. split; [exact F3|]. split; [|split].
    + intros j. specialize (F4 j). rewrite E4 in F4. destruct (Nat.eqb_spec j j0) as [e|]; [|exact F4]. rewrite e at 1. fold x. fold s in F4. lra.
    + intros j N. destruct (Req_dec (nth j b 0) (nth j a' 0)) as [Q|Q].
      * rewrite Q, E4 in N. destruct (Nat.eqb_spec j j0) as [e|]; [|contradiction]. rewrite e in N |- *.
        exists 0%nat. split; [lia|]. rewrite Z.add_0_r. split; [unfold j0; lia|]. intros CZ. apply N. unfold s. rewrite CZ, Rplus_0_r.
        apply rnd_id. exact NF.
      * destruct (F5 j Q) as (k & K1 & K2 & K3). exists (S k). split; [lia|].
        replace (z + Z.of_nat (S k))%Z with (z + 1 + Z.of_nat k)%Z by lia. split; assumption.
    + apply abs_bounds in F6. apply Rabs_le. lra.
Qed.

(** The numbers of the first and the last pixel. *)
Lemma quotient_near : forall x, Rabs x <= 2 * L -> Rabs (s64 (s64 x / dx) * dx - x) <= L / 1125899906842624.
Proof.
  intros x X. pose proof (LP L v n SZ) as LP. pose proof (boxlow L v n SZ) as BL.
  pose proof (dx_pos L v n dx SZ DX) as DXP. pose proof (dx_le L v n dx SZ DX) as DXL.
  pose proof (abs_bounds _ _ (len64 L _ _ BL X)) as E0. pose proof (abs_bounds _ _ X) as X'. set (y := s64 x) in *. clearbody y.
  pose proof (rerr Double (y / dx)) as R. fold (s64 (y / dx)) in R. rewrite unit_double in R.
  apply (Rmult_le_compat_r dx) in R; [|lra].
  replace (Rabs (s64 (y / dx) - y / dx) * dx) with (Rabs (s64 (y / dx) * dx - y)) in R.
  2:{ transitivity (Rabs (s64 (y / dx) - y / dx) * Rabs dx); [|rewrite (Rabs_pos_eq dx) by lra; reflexivity].
      rewrite <- Rabs_mult. f_equal. field. lra. }
  replace ((/ 9007199254740992 * Rabs (y / dx) + tiny_half Double) * dx) with (/ 9007199254740992 * Rabs y + tiny_half Double * dx) in R.
  2:{ unfold Rdiv. rewrite Rabs_mult, (Rabs_pos_eq (/ dx)) by (left; apply Rinv_0_lt_compat; lra). field. lra. }
  assert (T : tiny_half Double * dx <= L / 1152921504606846976).
  { rewrite <- p60. apply Rle_trans with (/ 2 ^ 61 * (2 * L)).
    - apply Rmult_le_compat; [left; apply tiny_pos|lra| |lra]. eapply Rle_trans; [apply tiny_small|]. apply pinv_le. lia.
    - unfold Rdiv. rewrite <- (pinv_S 60). change 61%nat with (S 60). right. set (k := / 2 ^ S 60). clearbody k. ring. }
  assert (Y : Rabs y <= 3 * L) by (apply Rabs_le; lra).
  apply abs_bounds in R. apply Rabs_le. lra.
Qed.

End Loop.

Lemma to_int_small : forall z n, (1 <= n <= 2 ^ 20)%nat -> (Z.abs z <= 3 * Z.of_nat n)%Z -> to_int (IZR z) = Some z /\ (z =? 2 ^ 31 - 1)%Z = false.
Proof.
  intros z n N Z. unfold to_int. rewrite Ztrunc_IZR.
  assert (B : (Z.of_nat n <= 1048576)%Z) by (change 1048576%Z with (Z.of_nat (2 ^ 20)); lia).
  split; [|apply Z.eqb_neq; lia]. destruct (Z.leb_spec (- 2 ^ 31) z); [|lia]. destruct (Z.ltb_spec z (2 ^ 31)); [reflexivity|lia].
Qed.

Theorem add_colden_spec : forall L v n dr2 dens pos h a, sizes L v n -> 0 <= pos <= L -> / 2 ^ 40 <= h -> 2 * h <= L -> 0 <= dr2 ->
  is_float Single dens -> 0 < dens -> length a = n -> gooda a ->
  exists b, add_colden_particle L v (Z.of_nat n) dr2 dens pos h a = Some b /\ length b = n /\ gooda b /\
    (forall j, nth j a 0 <= nth j b 0) /\
    (forall j, nth j b 0 <> nth j a 0 ->
       pixel_meets L n (h / 2 ^ 11 + L / 2 ^ 45) (pos - half_chord h dr2) (pos + half_chord h dr2) j) /\
    Rabs (total b - total a - column dens h dr2) <= dens * h / 2 ^ 12 + (INR n + 4) * (total a + dens * L) / 2 ^ 45.
Proof.
  intros L v n dr2 dens pos h a SZ POS H HL D DF DP LA GA. unfold add_colden_particle.
  pose proof (total_nonneg a GA) as TP. pose proof (LP L v n SZ) as LP. pose proof (n_pos L v n SZ) as N1. pose proof (n_top L v n SZ) as N2.
  pose proof (box_pos h H) as HP. pose proof kappa_bounds as KB.
  replace (2 ^ 11) with 2048 by (cbv [pow]; lra). replace (2 ^ 12) with 4096 by (cbv [pow]; lra). replace (2 ^ 45) with 35184372088832 by (cbv [pow]; lra).
  unfold column. fold kappa.
  assert (DL : 0 < dens * L) by nra. assert (DH : 0 < dens * h) by nra.
  destruct (leb_spec (s64 (s32 (h * h) - dr2)) 0) as [SK|SK].
  - exists a. split; [reflexivity|]. split; [exact LA|]. split; [exact GA|]. split; [intros; lra|]. split; [intros j N; contradiction|].
    pose proof (skip_near h dr2 H D SK) as S1. assert (0 <= half_chord h dr2) by apply sqrt_pos.
    set (hc := half_chord h dr2) in *. clearbody hc.
    assert (X : 0 <= dens * kappa * (2 * hc) <= dens * h / 4096).
    { split; [apply Rmult_le_pos; [nra|lra]|]. replace (dens * kappa * (2 * hc)) with (dens * (kappa * (2 * hc))) by ring.
      unfold Rdiv. rewrite Rmult_assoc. apply Rmult_le_compat_l; [lra|]. nra. }
    assert (Y : 0 <= (INR n + 4) * (total a + dens * L) / 35184372088832) by (unfold Rdiv; apply Rmult_le_pos; [nra|lra]).
    apply Rabs_le. lra.
  - destruct (zrange_near h dr2 H D SK) as (Z0 & Z1 & Z2). set (zr := s64 (sqrt (s64 (s32 (h * h) - dr2)))) in *. clearbody zr.
    pose proof (dx_near L v n SZ) as DX. set (dx := boxtokpc L v (Z.of_nat n)) in *. clearbody dx.
    assert (ZR : 0 <= zr <= L) by lra.
    pose proof (dx_pos L v n dx SZ DX) as DXP. pose proof (dxn L v n dx SZ DX) as DXN.
    pose proof (abs_bounds _ _ (quotient_near L v n dx SZ DX (pos - zr) ltac:(apply Rabs_le; lra))) as Q1.
    pose proof (abs_bounds _ _ (quotient_near L v n dx SZ DX (pos + zr) ltac:(apply Rabs_le; lra))) as Q2.
    set (q1 := s64 (s64 (pos - zr) / dx)) in *. clearbody q1. set (q2 := s64 (s64 (pos + zr) / dx)) in *. clearbody q2.
    pose proof (Zfloor_lb q1) as F1. pose proof (Zfloor_ub q1) as F2. pose proof (Zceil_ub q2) as C1. pose proof (Zceil_lb q2) as C2.
    set (zl := Zfloor q1) in *. clearbody zl. set (zh := Zceil q2) in *. clearbody zh.
    (* bounds of the quotients in pixels *)
    assert (B1 : - (3 / 5 * INR n) <= q1) by (apply Rmult_le_reg_r with dx; [lra|]; nra).
    assert (B2 : q2 <= 8 / 5 * INR n) by (apply Rmult_le_reg_r with dx; [lra|]; nra).
    assert (B3 : q2 - q1 <= INR n + 1 / 2) by (apply Rmult_le_reg_r with dx; [lra|]; nra).
    assert (B4 : - 1 < q2 - q1) by (apply Rmult_lt_reg_r with dx; [lra|]; nra).
    assert (OR : (zl <= zh)%Z) by (enough (zl - 1 < zh)%Z by lia; apply lt_IZR; rewrite minus_IZR; lra).
    rewrite INR_IZR_INZ in B1, B2, B3, N1.
    assert (R1 : (- (2 * Z.of_nat n) < zl)%Z) by (apply lt_IZR; rewrite opp_IZR, mult_IZR; lra).
    assert (R2 : (zh < 3 * Z.of_nat n)%Z) by (apply lt_IZR; rewrite mult_IZR; lra).
    assert (R3 : (zh - zl + 1 < Z.of_nat n + 4)%Z) by (apply lt_IZR; rewrite !plus_IZR, minus_IZR; lra).
    rewrite <- INR_IZR_INZ in B1, B2, B3, N1.
    assert (NN : (1 <= n <= 2 ^ 20)%nat) by apply SZ.
    destruct (to_int_small zl n NN ltac:(lia)) as (-> & _). destruct (to_int_small zh n NN ltac:(lia)) as (-> & ->).
    set (l := Z.to_nat (zh - zl + 1)).
    assert (LN : INR l <= INR n + 3).
    { replace (INR n + 3) with (INR (n + 3)) by (rewrite plus_INR; cbn [INR]; lra). apply le_INR. unfold l. lia. }
    assert (RE : in_reach n l zl) by (intros k K; unfold l in K; lia).
    pose proof (csum_near L v n dx pos zr dens SZ DX POS ZR DF DP l zl RE) as CN. apply abs_bounds in CN.
    replace (zl + Z.of_nat l)%Z with (zh + 1)%Z in CN by (unfold l; lia).
    assert (E1 : clip zr (g dx pos (zh + 1)) = zr).
    { assert (X : zr <= g dx pos (zh + 1)).
      { unfold g. rewrite plus_IZR. assert (q2 * dx <= dx * IZR zh) by nra. assert (L / 2097152 <= dx) by nra. lra. }
      unfold clip, Rmin, Rmax. repeat destruct (Rle_dec _ _); lra. }
    assert (E2 : - zr <= clip zr (g dx pos zl) <= - zr + L / 1125899906842624).
    { split; [apply clip_bounds; lra|]. assert (X : g dx pos zl <= - zr + L / 1125899906842624).
      { unfold g. assert (dx * IZR zl <= q1 * dx) by nra. lra. }
      unfold clip, Rmin, Rmax. repeat destruct (Rle_dec _ _); lra. }
    rewrite E1 in CN. set (cl := clip zr (g dx pos zl)) in *. clearbody cl.
    assert (CE : Rabs (dens * kappa * (zr - cl) - dens * kappa * (2 * zr)) <= dens * L / 4503599627370496).
    { replace (dens * kappa * (zr - cl) - dens * kappa * (2 * zr)) with (dens * (kappa * - (zr + cl))) by ring.
      rewrite !Rabs_mult, (Rabs_pos_eq dens), (Rabs_pos_eq kappa), Rabs_Ropp, Rabs_pos_eq by lra.
      unfold Rdiv. rewrite Rmult_assoc. apply Rmult_le_compat_l; [lra|]. nra. }
    apply abs_bounds in CE.
    set (W := total a + dens * L). assert (WP : 0 < W) by (unfold W; lra).
    assert (IL : 0 <= INR l) by apply pos_INR.
    assert (M1 : INR l * (dens * L / 70368744177664) <= dens * L / 33554432).
    { replace (dens * L / 33554432) with (2097152 * (dens * L / 70368744177664)) by field. apply Rmult_le_compat_r; lra. }
    assert (M2 : dens * kappa * (2 * zr) <= dens * L / 3).
    { replace (dens * kappa * (2 * zr)) with (dens * (kappa * (2 * zr))) by ring. unfold Rdiv. rewrite Rmult_assoc. apply Rmult_le_compat_l; [lra|]. nra. }
    assert (M3 : INR l * (W / 2251799813685248) <= W / 2).
    { apply Rle_trans with (2097152 * (W / 2251799813685248)); [apply Rmult_le_compat_r; lra|lra]. }
    destruct (loop_spec L v n dx pos zr dens SZ DX POS ZR DF DP W ltac:(lra) l zl a RE LA GA) as (b & G1 & G2 & G3 & G4 & G5 & G6).
    { unfold W in *. lra. }
    exists b. split; [exact G1|]. split; [exact G2|]. split; [exact G3|]. split; [exact G4|]. split.
    + intros j NJ. destruct (G5 j NJ) as (k & K1 & K2 & K3).
      assert (A : (Z.abs (zl + Z.of_nat k) <= 3 * Z.of_nat n)%Z) by (apply RE; exact K1).
      destruct (contribution_near L v n dx pos zr dens SZ DX POS ZR DF DP _ A) as (_ & _ & _ & T). specialize (T K3).
      set (z := (zl + Z.of_nat k)%Z) in *. clearbody z. exists (z / Z.of_nat n)%Z. cbv zeta.
      assert (ZE : INR j + IZR (z / Z.of_nat n) * INR n = IZR z).
      { rewrite !INR_IZR_INZ, <- mult_IZR, <- plus_IZR. f_equal. rewrite K2. pose proof (Z.div_mod z (Z.of_nat n) ltac:(lia)). lia. }
      rewrite ZE. unfold g in T. rewrite plus_IZR in T.
      assert (ER : Rabs (L / INR n * IZR z - dx * IZR z) <= 3 * L / 1125899906842624).
      { replace (L / INR n * IZR z - dx * IZR z) with (- (dx - L / INR n) * IZR z) by ring. rewrite Rabs_mult, Rabs_Ropp, <- abs_IZR.
        apply IZR_le in A. rewrite mult_IZR, <- INR_IZR_INZ in A.
        replace (3 * L / 1125899906842624) with (L / INR n / 1125899906842624 * (3 * INR n)) by (field; lra).
        apply Rmult_le_compat; [apply Rabs_pos|apply IZR_le; lia|exact DX|exact A]. }
      apply abs_bounds in ER. apply abs_bounds in Z2. apply abs_bounds in DX.
      assert (LNn : L / INR n <= L).
      { apply Rmult_le_reg_r with (INR n); [lra|]. unfold Rdiv. rewrite Rmult_assoc, Rinv_l by lra. nra. }
      set (ln := L / INR n) in *. set (lz := ln * IZR z) in *. set (dz := dx * IZR z) in *.
      replace (dx * (IZR z + 1)) with (dz + dx) in T by (unfold dz; ring). clearbody lz dz ln. set (hc := half_chord h dr2) in *. clearbody hc.
      split; lra.
    + apply abs_bounds in G6. apply abs_bounds in Z2. set (hc := half_chord h dr2) in *. clearbody hc.
      assert (HC : Rabs (dens * kappa * (2 * zr) - dens * kappa * (2 * hc)) <= dens * h / 4096).
      { replace (dens * kappa * (2 * zr) - dens * kappa * (2 * hc)) with (dens * (kappa * (2 * (zr - hc)))) by ring.
        rewrite !Rabs_mult, (Rabs_pos_eq dens), (Rabs_pos_eq kappa), (Rabs_pos_eq 2) by lra. unfold Rdiv. rewrite Rmult_assoc. apply Rmult_le_compat_l; [lra|].
        assert (X : Rabs (zr - hc) <= h / 4096 + h / 4194304) by (apply Rabs_le; lra). pose proof (Rabs_pos (zr - hc)). nra. }
      apply abs_bounds in HC.
      assert (DW : dens * L <= W) by (unfold W; lra).
      assert (M4 : INR l * (W / 2251799813685248) + INR l * (dens * L / 70368744177664) + dens * L / 4503599627370496 <= (INR n + 4) * W / 35184372088832).
      { apply Rle_trans with (INR l * (W / 2251799813685248) + INR l * (W / 70368744177664) + W / 4503599627370496).
        - apply Rplus_le_compat; [|lra]. apply Rplus_le_compat_l. apply Rmult_le_compat_l; lra.
        - assert (INR l * W <= (INR n + 3) * W) by (apply Rmult_le_compat_r; lra). set (lw := INR l * W) in *.
          replace (INR l * (W / 2251799813685248)) with (lw / 2251799813685248) by (unfold lw; field).
          replace (INR l * (W / 70368744177664)) with (lw / 70368744177664) by (unfold lw; field).
          replace ((INR n + 4) * W / 35184372088832) with (((INR n + 3) * W + W) / 35184372088832) by field.
          assert (0 <= lw) by (unfold lw; nra). set (nw := (INR n + 3) * W) in *. clearbody nw lw. lra. }
      fold W. apply Rabs_le. set (e1 := INR l * (W / 2251799813685248)) in *. set (e2 := INR l * (dens * L / 70368744177664)) in *.
      set (e3 := (INR n + 4) * W / 35184372088832) in *. clearbody e1 e2 e3. lra.
Qed.
