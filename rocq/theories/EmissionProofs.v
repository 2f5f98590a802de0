(** Proofs about cosmological distances and fluxes (C80, C81). *)
From Coquelicot Require Import Coquelicot.
From Coq Require Import List Bool Reals String Lia Lra.
From Verif Require Import EmissionModel EmissionSpec.
Import ListNotations.
Local Open Scope R_scope.

(** ** The trapezium rule for a decreasing function *)

Fixpoint steps (delta : R) (x : list R) : Prop :=
  match x with
  | a :: ((b :: _) as rest) => 0 <= b - a <= delta /\ steps delta rest
  | _ => True
  end.

Lemma steps_last : forall delta l a, steps delta (a :: l) -> a <= List.last (a :: l) 0.
Proof.
  intros delta l; induction l as [|b l IH]; intros a H; [cbn; lra|]. destruct H as [H1 H2].
  specialize (IH b H2). change (List.last (a :: b :: l) 0) with (List.last (b :: l) 0). lra.
Qed.

Lemma decreasing_int : forall f a b, a <= b -> (forall x y, a <= x <= y -> y <= b -> f y <= f x) -> ex_RInt f a b ->
  (b - a) * f b <= RInt f a b <= (b - a) * f a.
Proof.
  intros f a b L D E. split.
  - replace ((b - a) * f b) with (RInt (fun _ => f b) a b) by (rewrite RInt_const; reflexivity).
    apply RInt_le; auto; [apply ex_RInt_const|]. intros x X. apply D; lra.
  - replace ((b - a) * f a) with (RInt (fun _ => f a) a b) by (rewrite RInt_const; reflexivity).
    apply RInt_le; auto; [apply ex_RInt_const|]. intros x X. apply D; lra.
Qed.

Lemma trapz_bound : forall f delta hi l a, steps delta (a :: l) -> List.last (a :: l) 0 <= hi ->
  (forall x y, a <= x <= y -> y <= hi -> f y <= f x) ->
  (forall x, a <= x <= hi -> continuous f x) ->
  Rabs (trapz f (a :: l) - RInt f a (List.last (a :: l) 0)) <= delta / 2 * (f a - f (List.last (a :: l) 0)).
Proof.
  intros f delta hi l; induction l as [|b l IH]; intros a ST L D C.
  - cbn [trapz List.last]. rewrite RInt_point. change (@zero R_CompleteNormedModule) with 0. rewrite Rminus_0_r, Rabs_R0. lra.
  - destruct ST as [[S1 S2] S3]. change (List.last (a :: b :: l) 0) with (List.last (b :: l) 0) in *.
    set (e := List.last (b :: l) 0) in *. assert (BE : b <= e) by (apply (steps_last delta); exact S3).
    assert (EX : forall u v, a <= u -> u <= v -> v <= hi -> ex_RInt f u v).
    { intros u v U V W. apply (@ex_RInt_continuous R_CompleteNormedModule). intros x X. rewrite Rmin_left, Rmax_right in X by lra. apply C. lra. }
    specialize (IH b S3 L (fun x y X Y => D x y ltac:(lra) Y)).
    assert (CB : forall x, b <= x <= hi -> continuous f x) by (intros x X; apply C; lra).
    specialize (IH CB). fold e in IH.
    rewrite <- (RInt_Chasles f a b e) by (apply EX; lra). change (plus (RInt f a b) (RInt f b e)) with (RInt f a b + RInt f b e).
    change (trapz f (a :: b :: l)) with ((b - a) * (f a + f b) / 2 + trapz f (b :: l)).
    destruct (decreasing_int f a b) as [I1 I2]; [lra|intros x y X Y; apply D; lra|apply EX; lra|].
    assert (FB : f b <= f a) by (apply D; lra).
    replace ((b - a) * (f a + f b) / 2 + trapz f (b :: l) - (RInt f a b + RInt f b e))
      with (((b - a) * (f a + f b) / 2 - RInt f a b) + (trapz f (b :: l) - RInt f b e)) by ring.
    eapply Rle_trans; [apply Rabs_triang|].
    assert (Q : Rabs ((b - a) * (f a + f b) / 2 - RInt f a b) <= delta / 2 * (f a - f b)).
    { apply Rabs_le. assert ((b - a) * (f a - f b) <= delta * (f a - f b)) by (apply Rmult_le_compat_r; lra). lra. }
    lra.
Qed.

Lemma steps_map : forall delta g n k, (forall i, (k <= i)%nat -> (S i < k + n)%nat -> 0 <= g (S i) - g i <= delta) ->
  steps delta (map g (seq k n)).
Proof.
  intros delta g n; induction n as [|n IH]; intros k H; [exact I|]. destruct n as [|n]; [exact I|].
  change (map g (seq k (S (S n)))) with (g k :: map g (seq (S k) (S n))). 
  change (0 <= g (S k) - g k <= delta /\ steps delta (map g (seq (S k) (S n)))). split; [apply H; lia|].
  apply IH. intros i I1 I2. apply H; lia.
Qed.

Lemma last_map_seq : forall (g : nat -> R) n k d, List.last (map g (seq k (S n))) d = g (k + n)%nat.
Proof.
  intros g n; induction n as [|n IH]; intros k d; [cbn; f_equal; lia|].
  change (seq k (S (S n))) with (k :: seq (S k) (S n)). cbn [map].
  specialize (IH (S k) d). remember (map g (seq (S k) (S n))) as m eqn:E. destruct m as [|x m].
  { discriminate E. }
  change (List.last (x :: m) d = g (k + S n)%nat). rewrite IH. f_equal. lia.
Qed.

(** ** The nodes *)

Lemma log10_power : forall a t, 0 < a -> Rpower 10 (log10 a + t * (0 - log10 a)) = exp (ln a * (1 - t)).
Proof.
  intros a t A. unfold Rpower, log10. f_equal. field. assert (0 < ln 10) by (rewrite <- ln_1; apply ln_increasing; lra). lra.
Qed.

Lemma nodes : forall az m, 0 < az <= 1 -> (0 < m)%nat ->
  let l := logspace (log10 az) 0 (S m) in
  exists rest, l = az :: rest /\ List.last l 0 = 1 /\ steps (- ln az / INR m) l.
Proof.
  intros az m [A1 A2] M l.
  assert (MP : 0 < INR m) by (apply lt_0_INR; exact M).
  set (g := fun i => Rpower 10 (log10 az + INR i * ((0 - log10 az) / INR (S m - 1)))).
  assert (G : forall i, g i = exp (ln az * (1 - INR i / INR m))).
  { intros i. unfold g. rewrite <- log10_power by exact A1. f_equal. replace (S m - 1)%nat with m by lia. field. lra. }
  assert (LN : ln az <= 0).
  { destruct (Req_dec az 1) as [->|N]; [rewrite ln_1; lra|]. left. rewrite <- ln_1. apply ln_increasing; lra. }
  exists (map g (seq 1 m)). split; [|split].
  - unfold l, logspace. fold g. cbn [seq map]. f_equal. rewrite G. cbn [INR]. replace (ln az * (1 - 0 / INR m)) with (ln az) by (field; lra).
    apply exp_ln, A1.
  - unfold l, logspace. fold g. rewrite last_map_seq. rewrite G. replace (0 + m)%nat with m by lia.
    replace (ln az * (1 - INR m / INR m)) with 0 by (field; lra). apply exp_0.
  - unfold l, logspace. fold g. apply steps_map. intros i _ I. rewrite !G, S_INR.
    set (t := - ln az / INR m). assert (T : 0 <= t) by (unfold t; apply Rmult_le_pos; [lra|left; apply Rinv_0_lt_compat; lra]).
    replace (ln az * (1 - INR i / INR m)) with (ln az * (1 - (INR i + 1) / INR m) - t) by (unfold t; field; lra).
    set (y := ln az * (1 - (INR i + 1) / INR m)).
    assert (Y : y <= 0).
    { unfold y. assert (0 <= 1 - (INR i + 1) / INR m).
      { assert (INR (S i) <= INR m) by (apply le_INR; lia). rewrite S_INR in H.
        apply Rmult_le_reg_r with (INR m); [lra|]. replace ((1 - (INR i + 1) / INR m) * INR m) with (INR m - (INR i + 1)) by (field; lra). lra. }
      nra. }
    assert (EY : exp y <= 1) by (rewrite <- exp_0; destruct Y as [Y| ->]; [left; apply exp_increasing; exact Y|lra]).
    assert (EP := exp_pos y).
    replace (y - t) with (y + - t) by ring. rewrite exp_plus.
    assert (E1 : 1 + - t <= exp (- t)) by apply exp_ineq1_le.
    assert (E2 : exp (- t) <= 1) by (rewrite <- exp_0; destruct (Req_dec t 0) as [->|N]; [rewrite Ropp_0; lra|left; apply exp_increasing; lra]).
    split; nra.
Qed.

(** ** The integrand *)

Definition quartic (om wr wv a : R) : R := om * a + wr + wv * a ^ 4.

Lemma a2H_quartic : forall om wr wv a, 0 < a -> a2H om wr wv a = sqrt (quartic om wr wv a).
Proof.
  intros om wr wv a A. unfold a2H, quartic.
  replace (a * a) with (sqrt (a ^ 4)).
  2:{ replace (a ^ 4) with (Rsqr (a * a)) by (unfold Rsqr; ring). apply sqrt_Rsqr. nra. }
  rewrite <- sqrt_mult_alt by (apply pow_le; lra). f_equal. field. lra.
Qed.

Lemma quartic_pos : forall om wr wv a, 0 < wr -> 0 <= om -> 0 <= om + 4 * wv -> 0 < a <= 1 -> 0 < quartic om wr wv a.
Proof.
  intros om wr wv a W O V A. unfold quartic.
  assert (0 <= om * a + wv * a ^ 4); [|lra]. replace (om * a + wv * a ^ 4) with (a * (om + wv * a ^ 3)) by ring.
  assert (0 <= a ^ 3 <= 1). { split; [apply pow_le; lra|]. rewrite <- (pow1 3). apply pow_incr. lra. }
  assert (0 <= om + wv * a ^ 3); [|nra]. destruct (Rle_dec 0 wv); nra.
Qed.

Lemma quartic_mono : forall om wr wv a b, 0 <= om -> 0 <= om + 4 * wv -> 0 < a <= b -> b <= 1 ->
  quartic om wr wv a <= quartic om wr wv b.
Proof.
  intros om wr wv a b O V A B. unfold quartic.
  assert (E : om * b + wr + wv * b ^ 4 - (om * a + wr + wv * a ^ 4) = (b - a) * (om + wv * (a ^ 3 + a ^ 2 * b + a * b ^ 2 + b ^ 3))) by ring.
  assert (S4 : 0 <= a ^ 3 + a ^ 2 * b + a * b ^ 2 + b ^ 3 <= 4).
  { assert (A2 : 0 <= a * a <= 1) by nra. assert (B2 : 0 <= b * b <= 1) by nra.
    assert (0 <= a * a * a <= 1) by nra. assert (0 <= a * a * b <= 1) by nra. assert (0 <= a * (b * b) <= 1) by nra.
    assert (0 <= b * b * b <= 1) by nra.
    replace (a ^ 3 + a ^ 2 * b + a * b ^ 2 + b ^ 3) with (a * a * a + a * a * b + a * (b * b) + b * b * b) by ring. lra. }
  set (s := a ^ 3 + a ^ 2 * b + a * b ^ 2 + b ^ 3) in *. clearbody s.
  assert (0 <= om + wv * s) by (destruct (Rle_dec 0 wv); nra).
  assert (0 <= (b - a) * (om + wv * s)) by (apply Rmult_le_pos; lra). lra.
Qed.

Lemma integrand_dec : forall om wr wv x y, 0 < wr -> 0 <= om -> 0 <= om + 4 * wv -> 0 < x <= y -> y <= 1 ->
  1 / a2H om wr wv y <= 1 / a2H om wr wv x.
Proof.
  intros om wr wv x y W O V X Y. rewrite !a2H_quartic by lra.
  assert (P := quartic_pos om wr wv x W O V ltac:(lra)). assert (M := quartic_mono om wr wv x y O V X Y).
  unfold Rdiv. rewrite !Rmult_1_l. apply Rinv_le_contravar; [apply sqrt_lt_R0, P|]. apply sqrt_le_1_alt, M.
Qed.

Lemma integrand_cont : forall om wr wv x, 0 < wr -> 0 <= om -> 0 <= om + 4 * wv -> 0 < x <= 1 ->
  continuous (fun a => 1 / a2H om wr wv a) x.
Proof.
  intros om wr wv x W O V X. assert (P := quartic_pos om wr wv x W O V X).
  apply continuous_ext_loc with (fun a => / sqrt (quartic om wr wv a)).
  - exists (mkposreal x (proj1 X)). intros y B. change (Rabs (y - x) < x) in B. apply Rabs_def2 in B.
    rewrite a2H_quartic by lra. unfold Rdiv. rewrite Rmult_1_l. reflexivity.
  - apply continuous_comp; [|apply continuity_pt_filterlim, continuity_pt_inv; [apply derivable_continuous_pt, derivable_pt_id|]].
    + apply continuous_comp; [|apply continuous_sqrt]. unfold quartic.
      apply (ex_derive_continuous (fun a => om * a + wr + wv * a ^ 4)). auto_derive. exact I.
    + apply Rgt_not_eq, sqrt_lt_R0, P.
Qed.

(** ** The integral over the scale factor and the one over redshift *)

Lemma change_variable : forall om h z, 0 < h -> 0 <= z -> 0 <= om -> 0 <= om + 4 * (1 - om - radiation h) ->
  is_RInt (fun s => / expansion om h s) 0 z (RInt (fun a => 1 / a2H om (radiation h) (1 - om - radiation h) a) (1 / (1 + z)) 1).
Proof.
  intros om h z H Z O V. set (wr := radiation h) in *. set (wv := 1 - om - wr) in *.
  assert (W : 0 < wr) by (unfold wr, radiation; apply Rdiv_lt_0_compat; [lra|apply pow_lt; lra]).
  set (f := fun a => 1 / a2H om wr wv a).
  assert (INV : forall y, 0 <= y -> 0 < / (1 + y) <= 1).
  { intros y Y. split; [apply Rinv_0_lt_compat; lra|]. rewrite <- Rinv_1 at 2. apply Rinv_le_contravar; lra. }
  assert (I := is_RInt_comp f (fun s => / (1 + s)) (fun s => - / (1 + s) ^ 2) 0 z).
  rewrite Rmin_left, Rmax_right in I by lra.
  specialize (I (fun x X => integrand_cont om wr wv (/ (1 + x)) W O V (INV x (proj1 X)))).
  assert (D : forall x, 0 <= x <= z -> is_derive (fun s => / (1 + s)) x (- / (1 + x) ^ 2) /\ continuous (fun s => - / (1 + s) ^ 2) x).
  { intros x X. split.
    - auto_derive; [lra|]. field. lra.
    - apply (ex_derive_continuous (fun s => - / (1 + s) ^ 2)). auto_derive. apply Rgt_not_eq, Rlt_gt. change (0 < (1 + x) ^ 2). apply pow_lt. lra. }
  specialize (I D). apply is_RInt_opp in I.
  replace (/ (1 + 0)) with 1 in I by field.
  replace (1 / (1 + z)) with (/ (1 + z)) by (field; lra).
  rewrite <- (opp_RInt_swap f).
  2:{ apply (@ex_RInt_continuous R_CompleteNormedModule). intros x X. destruct (INV z Z) as [I1 I2]. rewrite Rmin_right, Rmax_left in X by lra.
      apply integrand_cont; auto; lra. }
  apply is_RInt_ext with (2 := I). intros x X. rewrite Rmin_left, Rmax_right in X by lra.
  change (opp (scal (- / (1 + x) ^ 2) (f (/ (1 + x))))) with (- (- / (1 + x) ^ 2 * f (/ (1 + x)))).
  unfold f, a2H, expansion. fold wr. fold wv.
  replace (om / (/ (1 + x)) ^ 3 + wr / (/ (1 + x)) ^ 4 + wv) with (om * (1 + x) ^ 3 + wr * (1 + x) ^ 4 + wv) by (field; lra).
  set (q := om * (1 + x) ^ 3 + wr * (1 + x) ^ 4 + wv).
  assert (Q : 0 < q).
  { assert (P := quartic_pos om wr wv (/ (1 + x)) W O V (INV x ltac:(lra))). unfold quartic in P.
    replace q with ((om * / (1 + x) + wr + wv * (/ (1 + x)) ^ 4) * (1 + x) ^ 4) by (unfold q; field; lra).
    apply Rmult_lt_0_compat; [exact P|apply pow_lt; lra]. }
  assert (SQ := sqrt_lt_R0 q Q). match goal with |- ?a = ?b => change (@eq R a b) end. field. split; lra.
Qed.

Lemma C80_comoving_aux : forall h0 om z, 0 < h0 -> 0 <= z -> 0 <= om -> 0 <= om + 4 * (1 - om - radiation (h0 / 100)) ->
  exists d, comoving_distance h0 om z d /\ (forall d', comoving_distance h0 om z d' -> d' = d) /\
    Rabs (fst (fst (calculator h0 om z)) - d) <=
      299792.458 / h0 * (ln (1 + z) / 1998 * ((1 + z) ^ 2 / expansion om (h0 / 100) z - 1)).
Proof.
  intros h0 om z H Z O V. set (h := h0 / 100) in *. assert (HP : 0 < h) by (unfold h; lra).
  assert (I := change_variable om h z HP Z O V).
  set (wr := radiation h) in *. set (wv := 1 - om - wr) in *. set (f := fun a => 1 / a2H om wr wv a) in *.
  assert (W : 0 < wr) by (unfold wr, radiation; apply Rdiv_lt_0_compat; [lra|apply pow_lt; lra]).
  set (az := 1 / (1 + z)) in *.
  assert (AZ : 0 < az <= 1).
  { unfold az. split; [apply Rdiv_lt_0_compat; lra|]. apply Rmult_le_reg_r with (1 + z); [lra|]. replace (1 / (1 + z) * (1 + z)) with 1 by (field; lra). lra. }
  exists (299792.458 / h0 * RInt f az 1). split; [|split].
  - exists (RInt f az 1). split; [exact I|reflexivity].
  - intros d' [i [J ->]]. fold h in J. rewrite <- (is_RInt_unique _ _ _ _ I), <- (is_RInt_unique _ _ _ _ J). reflexivity.
  - assert (C : fst (fst (calculator h0 om z)) = 299792.458 / h0 * trapz f (logspace (log10 az) 0 1000)).
    { unfold calculator. cbv zeta. cbn [fst]. fold az. unfold f, wv, wr, radiation. fold h. replace (h * h) with (h ^ 2) by ring. reflexivity. }
    rewrite C. rewrite <- Rmult_minus_distr_l, Rabs_mult.
    assert (K : 0 < 299792.458 / h0) by (apply Rdiv_lt_0_compat; lra). rewrite (Rabs_pos_eq (299792.458 / h0)) by lra.
    apply Rmult_le_compat_l; [lra|].
    destruct (nodes az 999 AZ ltac:(lia)) as [rest [E1 [E2 E3]]].
    change (S 999) with 1000%nat in E1, E2, E3. rewrite E1 in *.
    assert (T := trapz_bound f (- ln az / INR 999) 1 rest az E3).
    rewrite E2 in T. specialize (T (Rle_refl 1)).
    specialize (T (fun x y X Y => integrand_dec om wr wv x y W O V ltac:(lra) Y)).
    specialize (T (fun x X => integrand_cont om wr wv x W O V ltac:(lra))).
    eapply Rle_trans; [exact T|]. apply Req_le.
    assert (LZ : ln az = - ln (1 + z)) by (unfold az; unfold Rdiv; rewrite Rmult_1_l; apply ln_Rinv; lra).
    rewrite LZ, Ropp_involutive. replace (INR 999) with 999 by (rewrite INR_IZR_INZ; reflexivity).
    assert (F1 : f 1 = 1).
    { unfold f, a2H. replace (om / 1 ^ 3 + wr / 1 ^ 4 + wv) with 1 by (unfold wv; field). rewrite sqrt_1. field. }
    assert (FA : f az = (1 + z) ^ 2 / expansion om h z).
    { unfold f, a2H, expansion. fold wr. fold wv.
      replace (om / az ^ 3 + wr / az ^ 4 + wv) with (om * (1 + z) ^ 3 + wr * (1 + z) ^ 4 + wv) by (unfold az; field; lra).
      set (q := om * (1 + z) ^ 3 + wr * (1 + z) ^ 4 + wv).
      assert (Q : 0 < q).
      { assert (P := quartic_pos om wr wv az W O V AZ). unfold quartic in P.
        replace q with ((om * az + wr + wv * az ^ 4) * (1 + z) ^ 4) by (unfold q, az; field; lra).
        apply Rmult_lt_0_compat; [exact P|apply pow_lt; lra]. }
      assert (SQ := sqrt_lt_R0 q Q). unfold az. field. split; lra. }
    rewrite F1, FA. field. intros E. 
    assert (P2 := sqrt_lt_R0). unfold expansion in E.
    assert (Q : 0 < om * (1 + z) ^ 3 + radiation h * (1 + z) ^ 4 + (1 - om - radiation h)).
    { assert (P := quartic_pos om wr wv az W O V AZ). unfold quartic in P. fold wr. fold wv.
      replace (om * (1 + z) ^ 3 + wr * (1 + z) ^ 4 + wv) with ((om * az + wr + wv * az ^ 4) * (1 + z) ^ 4) by (unfold az; field; lra).
      apply Rmult_lt_0_compat; [exact P|apply pow_lt; lra]. }
    specialize (P2 _ Q). lra.
Qed.

Lemma C80_ratios_aux : forall h0 om z, -1 < z ->
  let '(dc, da, dl) := calculator h0 om z in da = dc / (1 + z) /\ dl = dc * (1 + z).
Proof.
  intros h0 om z Z. unfold calculator. cbv zeta. set (t := trapz _ _). set (k := 299792.458 / h0). split; field; lra.
Qed.

Lemma C80_size_aux : forall arcsec z h om, -1 < z -> 0 < h ->
  distance arcsec z h om = arcsec / 3600 * (PI / 180) * (fst (fst (calculator (h * 100) om z)) * 1000 * h).
Proof.
  intros arcsec z h om Z H. unfold distance. pose proof (C80_ratios_aux (h * 100) om z Z) as Q.
  destruct (calculator (h * 100) om z) as [[dc da] dl]. destruct Q as [-> _]. cbn [fst snd]. field. lra.
Qed.

(** ** Fluxes *)

Lemma quarter : / - (2.5) = - (2 / 5).
Proof. rewrite Rinv_opp. lra. Qed.

Lemma C81_modulus_aux : forall m dl m' band f f', 0 < dl -> apparent_magnitude m dl m' ->
  maginJy m band = Some f -> maginJy m' band = Some f' -> f * apparentflux dl = f'.
Proof.
  intros m dl m' band f f' D A M M'. unfold maginJy in *. destruct (bandflux band) as [b|]; [|discriminate].
  injection M as <-. injection M' as <-. rewrite A. unfold apparentflux.
  assert (LT : 0 < ln 10) by (rewrite <- ln_1; apply ln_increasing; lra).
  assert (E6 : 0 < 1e6) by lra. set (e := 1e6) in *. clearbody e.
  assert (X : 0 < dl * e / 10) by (apply Rdiv_lt_0_compat; [nra|lra]).
  replace ((m + 5 * (ln (dl * e / 10) / ln 10)) / - (2.5)) with (m / - (2.5) + (-2) * (ln (dl * e / 10) / ln 10)) by (unfold Rdiv; rewrite !quarter; lra).
  rewrite Rpower_plus.
  assert (P : Rpower 10 (-2 * (ln (dl * e / 10) / ln 10)) = (10 / (dl * e)) ^ 2).
  { unfold Rpower. replace (-2 * (ln (dl * e / 10) / ln 10) * ln 10) with (- (ln (dl * e / 10) + ln (dl * e / 10))) by (field; lra).
    rewrite exp_Ropp, exp_plus, exp_ln by exact X. field. split; nra. }
  rewrite P. ring.
Qed.

Lemma C81_five_aux : forall m band f f', maginJy m band = Some f -> maginJy (m + 5) band = Some f' -> f = 100 * f'.
Proof.
  intros m band f f' M M'. unfold maginJy in *. destruct (bandflux band) as [b|]; [|discriminate].
  injection M as <-. injection M' as <-. replace ((m + 5) / - (2.5)) with (m / - (2.5) + - (2)) by (unfold Rdiv; rewrite !quarter; lra).
  rewrite Rpower_plus, (Rpower_Ropp 10 2).
  assert (P : Rpower 10 2 = 100) by (change 2 with (INR 2); rewrite Rpower_pow by lra; lra).
  rewrite P. set (p := Rpower 10 _). lra.
Qed.

Lemma filter_sub : forall A (p q : A -> bool) l, (forall x, In x l -> p x = true -> q x = true) -> filter p (filter q l) = filter p l.
Proof.
  intros A p q l H. induction l as [|x l IH]; [reflexivity|]. cbn [filter].
  assert (IH' := IH (fun y Y => H y (or_intror Y))).
  destruct (q x) eqn:Q; cbn [filter]; destruct (p x) eqn:P; rewrite ?IH'; auto.
  rewrite (H x (or_introl eq_refl) P) in Q. discriminate.
Qed.

Lemma C81_stars_aux : forall (star line : Type) (mags : star -> list R) (near : R -> line -> star -> bool) stars lines band hh k,
  band_column band = Some k ->
  ((exists s l, In s stars /\ In l lines /\ near hh l s = true) ->
   exists out, read_stellar_data star line mags near stars lines band hh = Ok out /\
     Forall2 (fun l x => exists fs, Forall2 (fun s f => maginJy (nth k (mags s) 0) band = Some f) (filter (near hh l) stars) fs /\
                x = fold_right Rplus 0 fs) lines out) /\
  ((forall s l, In s stars -> In l lines -> near hh l s = false) ->
   read_stellar_data star line mags near stars lines band hh = ValueErr).
Proof.
  intros star line mags near stars lines band hh k B.
  assert (BF : exists f, bandflux band = Some f).
  { unfold band_column in B. unfold bandflux.
    repeat match goal with H : (if ?c then _ else _) = _ |- _ => destruct c; [eexists; reflexivity|] end. discriminate. }
  destruct BF as [f BF]. unfold read_stellar_data. rewrite B, BF.
  set (found := filter (fun s => existsb (fun l => near hh l s) lines) stars). split.
  - intros [s [l [S1 [L1 N]]]].
    assert (NE : found <> []).
    { intros E. assert (I : In s found) by (unfold found; apply filter_In; split; [exact S1|]; apply existsb_exists; exists l; auto).
      rewrite E in I. destruct I. }
    exists (map (fun l => total (map (fun s => Rpower 10 (nth k (mags s) 0 / - (2.5)) * f) (filter (near hh l) found))) lines).
    split; [destruct found; [congruence|reflexivity]|].
    assert (G : forall ls, (forall l, In l ls -> In l lines) ->
      Forall2 (fun l x => exists fs, Forall2 (fun s f => maginJy (nth k (mags s) 0) band = Some f) (filter (near hh l) stars) fs /\
                x = fold_right Rplus 0 fs) ls
        (map (fun l => total (map (fun s => Rpower 10 (nth k (mags s) 0 / - (2.5)) * f) (filter (near hh l) found))) ls)).
    { intros ls; induction ls as [|l' ls IH]; intros SUB; constructor.
      - eexists. split; [|unfold total; reflexivity].
        assert (FS : filter (near hh l') found = filter (near hh l') stars).
        { unfold found. apply filter_sub. intros x X P. apply existsb_exists. exists l'. split; [apply SUB; left; auto|exact P]. }
        rewrite FS. clear - BF. induction (filter (near hh l') stars) as [|x xs IH]; constructor; [|exact IH].
        unfold maginJy. rewrite BF. reflexivity.
      - apply IH. intros x X. apply SUB. right; auto. }
    apply G. auto.
  - intros N. assert (E : found = []).
    { unfold found. clear - N. induction stars as [|x xs IH]; [reflexivity|]. cbn [filter].
      replace (existsb (fun l => near hh l x) lines) with false; [apply IH; intros s l S1 L1; apply N; auto; right; auto|].
      symmetry. apply not_true_is_false. intros T. apply existsb_exists in T as [l [L1 L2]]. rewrite (N x l (or_introl eq_refl) L1) in L2. discriminate. }
    rewrite E. reflexivity.
Qed.

Lemma C81_never_aux : forall on_disc calls,
  let step := fun (acc : list (res (list R)) * stellar) (c : string * R * R * R * R) =>
    match c with (band, pixelsz, z, h, om) =>
      let (r, s) := get_emflux on_disc band pixelsz z h om (snd acc) in (fst acc ++ [r], s) end in
  fold_left step calls ([], []) = (map (fun _ => TypeErr) calls, []).
Proof.
  intros on_disc calls step.
  assert (G : forall l, fold_left step calls (l, []) = (l ++ map (fun _ => TypeErr) calls, [])).
  { induction calls as [|[[[[band p] z] h] om] calls IH]; intros l; [cbn; rewrite app_nil_r; reflexivity|].
    cbn [fold_left]. change (step (l, []) (band, p, z, h, om)) with (l ++ [@TypeErr (list R)], @nil ((string * R) * list R)).
    rewrite IH. rewrite <- app_assoc. reflexivity. }
  apply G.
Qed.

Lemma find_set : forall s k v w, find_key s k = Some w -> find_key (set_key s k v) k = Some v.
Proof.
  intros s k v w. induction s as [|[k' u] s IH]; [discriminate|]. cbn [find_key set_key].
  destruct (String.eqb (fst k) (fst k')) eqn:E1; [destruct (Req_EM_T (snd k) (snd k')) as [E2|E2]|].
  - intros _. cbn [find_key]. rewrite E1. destruct (Req_EM_T (snd k) (snd k')); [reflexivity|contradiction].
  - intros H. cbn [find_key]. rewrite E1. destruct (Req_EM_T (snd k) (snd k')); [contradiction|]. auto.
  - intros H. cbn [find_key]. rewrite E1. auto.
Qed.

Lemma C81_again_aux : forall on_disc band pixelsz z h om s e, (1 < List.length e)%nat ->
  find_key s (band, distance pixelsz z h om) = Some e ->
  let a := apparentflux (snd (calculator (h * 100) om z)) in
  exists s' s'', get_emflux on_disc band pixelsz z h om s = (Ok (map (fun x => x * a) e), s') /\
    get_emflux on_disc band pixelsz z h om s' = (Ok (map (fun x => x * a * a) e), s'').
Proof.
  intros on_disc band pixelsz z h om s e L F a. unfold get_emflux. cbv zeta. fold a.
  set (k := (band, distance pixelsz z h om)) in *. rewrite F.
  assert (LT : forall v : list R, (1 < List.length v)%nat -> Nat.ltb 1 (List.length v) = true) by (intros v V; apply Nat.ltb_lt; exact V).
  rewrite (LT e L). eexists. eexists. split; [reflexivity|].
  rewrite (find_set _ _ _ _ F), LT by (rewrite map_length; exact L). rewrite map_map. reflexivity.
Qed.
