(** Second-order accuracy of the distances (C80). *)
From Coquelicot Require Import Coquelicot.
From Coq Require Import List Bool Reals String Lia Lra.
From Verif Require Import EmissionModel EmissionSpec EmissionProofs.
Import ListNotations.
Local Open Scope R_scope.

(** ** The trapezium rule for a function with an increasing derivative *)

Lemma mvt_bounds : forall f df a b, a <= b -> (forall x, a <= x <= b -> is_derive f x (df x)) ->
  (forall x y, a <= x <= y -> y <= b -> df x <= df y) -> df a * (b - a) <= f b - f a <= df b * (b - a).
Proof.
  intros f df a b L D M. destruct (MVT_gen f a b df) as [c [C1 C2]].
  - intros x X. rewrite Rmin_left, Rmax_right in X by lra. apply D. lra.
  - intros x X. rewrite Rmin_left, Rmax_right in X by lra. apply continuity_pt_filterlim, (ex_derive_continuous f). exists (df x). apply D. lra.
  - rewrite Rmin_left, Rmax_right in C1 by lra. rewrite C2. split; apply Rmult_le_compat_r; try lra; apply M; lra.
Qed.

Lemma linear_int : forall u v a b, RInt (fun x => u + v * x) a b = u * (b - a) + v * (b ^ 2 - a ^ 2) / 2.
Proof.
  intros u v a b. apply is_RInt_unique.
  assert (I := is_RInt_derive (fun x => u * x + v * x ^ 2 / 2) (fun x => u + v * x) a b).
  replace (u * (b - a) + v * (b ^ 2 - a ^ 2) / 2) with (minus (u * b + v * b ^ 2 / 2) (u * a + v * a ^ 2 / 2))
    by (unfold minus, plus, opp; cbn; field).
  apply I.
  - intros x _. auto_derive; [exact I0|field] || (auto_derive; [auto|field]).
  - intros x _. apply (ex_derive_continuous (fun x => u + v * x)). auto_derive. auto.
Qed.

Lemma linear_ex : forall u v a b, ex_RInt (fun x => u + v * x) a b.
Proof.
  intros u v a b. apply (@ex_RInt_continuous R_CompleteNormedModule). intros x _. apply (ex_derive_continuous (fun x => u + v * x)). auto_derive. auto.
Qed.

Lemma trap_one : forall f df a b, a <= b -> (forall x, a <= x <= b -> is_derive f x (df x)) ->
  (forall x y, a <= x <= y -> y <= b -> df x <= df y) ->
  Rabs ((b - a) * (f a + f b) / 2 - RInt f a b) <= (b - a) ^ 2 / 4 * (df b - df a).
Proof.
  intros f df a b L D M.
  assert (EX : ex_RInt f a b).
  { apply (@ex_RInt_continuous R_CompleteNormedModule). intros x X. rewrite Rmin_left, Rmax_right in X by lra.
    apply (ex_derive_continuous f). exists (df x). apply D. lra. }
  assert (P : forall x, a <= x <= b ->
            (f a + f b) / 2 + (df a * (x - a) - df b * (b - x)) / 2 <= f x <= (f a + f b) / 2 + (df b * (x - a) - df a * (b - x)) / 2).
  { intros x X.
    assert (B1 := mvt_bounds f df a x (proj1 X) (fun y Y => D y ltac:(lra)) (fun y z Y Z => M y z Y ltac:(lra))).
    assert (B2 := mvt_bounds f df x b (proj2 X) (fun y Y => D y ltac:(lra)) (fun y z Y Z => M y z ltac:(lra) Z)).
    assert (DX : df a <= df x <= df b) by (split; apply M; lra).
    assert (df x * (x - a) <= df b * (x - a)) by (apply Rmult_le_compat_r; lra).
    assert (df a * (b - x) <= df x * (b - x)) by (apply Rmult_le_compat_r; lra). lra. }
  assert (LO : RInt (fun x => ((f a + f b) / 2 - (df a * a + df b * b) / 2) + ((df a + df b) / 2) * x) a b <= RInt f a b).
  { apply RInt_le; auto; [apply linear_ex|]. intros x X. specialize (P x ltac:(lra)). lra. }
  assert (HI : RInt f a b <= RInt (fun x => ((f a + f b) / 2 - (df b * a + df a * b) / 2) + ((df a + df b) / 2) * x) a b).
  { apply RInt_le; auto; [apply linear_ex|]. intros x X. specialize (P x ltac:(lra)). lra. }
  rewrite linear_int in LO, HI. apply Rabs_le.
  replace ((b - a) ^ 2) with (b ^ 2 - 2 * (a * b) + a ^ 2) by ring.
  split; nra.
Qed.

Lemma trapz_convex : forall f df delta hi l a, steps delta (a :: l) -> List.last (a :: l) 0 <= hi ->
  (forall x, a <= x <= hi -> is_derive f x (df x)) -> (forall x y, a <= x <= y -> y <= hi -> df x <= df y) ->
  Rabs (trapz f (a :: l) - RInt f a (List.last (a :: l) 0)) <= delta ^ 2 / 4 * (df (List.last (a :: l) 0) - df a).
Proof.
  intros f df delta hi l; induction l as [|b l IH]; intros a ST L D M.
  - cbn [trapz List.last]. rewrite RInt_point. change (@zero R_CompleteNormedModule) with 0. rewrite Rminus_0_r, Rabs_R0. lra.
  - destruct ST as [[S1 S2] S3]. change (List.last (a :: b :: l) 0) with (List.last (b :: l) 0) in *.
    set (e := List.last (b :: l) 0) in *. assert (BE : b <= e) by (apply (steps_last delta); exact S3).
    assert (EX : forall u v, a <= u -> u <= v -> v <= hi -> ex_RInt f u v).
    { intros u v U V W. apply (@ex_RInt_continuous R_CompleteNormedModule). intros x X. rewrite Rmin_left, Rmax_right in X by lra.
      apply (ex_derive_continuous f). exists (df x). apply D. lra. }
    specialize (IH b S3 L (fun x X => D x ltac:(lra)) (fun x y X Y => M x y ltac:(lra) Y)). fold e in IH.
    rewrite <- (RInt_Chasles f a b e) by (apply EX; lra). change (plus (RInt f a b) (RInt f b e)) with (RInt f a b + RInt f b e).
    change (trapz f (a :: b :: l)) with ((b - a) * (f a + f b) / 2 + trapz f (b :: l)).
    assert (T := trap_one f df a b ltac:(lra) (fun x X => D x ltac:(lra)) (fun x y X Y => M x y X ltac:(lra))).
    assert (FB : df a <= df b) by (apply M; lra).
    replace ((b - a) * (f a + f b) / 2 + trapz f (b :: l) - (RInt f a b + RInt f b e))
      with (((b - a) * (f a + f b) / 2 - RInt f a b) + (trapz f (b :: l) - RInt f b e)) by ring.
    eapply Rle_trans; [apply Rabs_triang|].
    assert (Q : (b - a) ^ 2 / 4 * (df b - df a) <= delta ^ 2 / 4 * (df b - df a)).
    { apply Rmult_le_compat_r; [lra|]. assert ((b - a) ^ 2 <= delta ^ 2) by (apply pow_incr; lra). lra. }
    lra.
Qed.

(** ** The derivative of the integrand *)

Definition slope (om wr wv a : R) : R := - (om + 4 * wv * a ^ 3) / (2 * (quartic om wr wv a * sqrt (quartic om wr wv a))).

Lemma integrand_derive : forall om wr wv x, 0 < wr -> 0 <= om -> 0 <= om + 4 * wv -> 0 < x <= 1 ->
  is_derive (fun a => 1 / a2H om wr wv a) x (slope om wr wv x).
Proof.
  intros om wr wv x W O V X. assert (P := quartic_pos om wr wv x W O V X).
  apply is_derive_ext_loc with (fun a => / sqrt (quartic om wr wv a)).
  - exists (mkposreal x (proj1 X)). intros y B. change (Rabs (y - x) < x) in B. apply Rabs_def2 in B.
    rewrite a2H_quartic by lra. unfold Rdiv. rewrite Rmult_1_l. reflexivity.
  - assert (SQ := sqrt_lt_R0 _ P). unfold quartic in *. auto_derive.
    + split; [exact P|]. split; [|exact I]. apply Rgt_not_eq, SQ.
    + unfold slope, quartic.
      assert (E : sqrt (om * x + wr + wv * x ^ 4) * sqrt (om * x + wr + wv * x ^ 4) = om * x + wr + wv * x ^ 4) by (apply sqrt_sqrt; lra).
      change (x * (x * (x * (x * 1)))) with (x ^ 4).
      set (s := sqrt (om * x + wr + wv * x ^ 4)) in *. rewrite <- E. field. lra.
Qed.

Lemma slope_mono : forall om wr wv x y, 0 < wr -> 0 <= om -> 0 <= om + 4 * wv -> 8 * wv * wr <= om ^ 2 ->
  0 < x <= y -> y <= 1 -> slope om wr wv x <= slope om wr wv y.
Proof.
  intros om wr wv x y W O V C X Y.
  set (N := fun a => (om + 4 * wv * a ^ 3) ^ 2 / quartic om wr wv a ^ 3).
  assert (QP : forall a, x <= a <= y -> 0 < quartic om wr wv a) by (intros a A; apply quartic_pos; auto; lra).
  assert (TP : forall a, x <= a <= y -> 0 <= om + 4 * wv * a ^ 3).
  { intros a A. assert (0 <= a ^ 3 <= 1). { split; [apply pow_le; lra|]. rewrite <- (pow1 3). apply pow_incr. lra. } destruct (Rle_dec 0 wv); nra. }
  set (dN := fun a => (om + 4 * wv * a ^ 3) * (24 * wv * a ^ 2 * quartic om wr wv a - 3 * (om + 4 * wv * a ^ 3) ^ 2) / quartic om wr wv a ^ 4).
  assert (DN : forall a, x <= a <= y -> is_derive N a (dN a)).
  { intros a A. assert (P := QP a A). unfold N, dN, quartic in *. auto_derive.
    - apply Rgt_not_eq. change (0 < (om * a + wr + wv * a ^ 4) ^ 3). apply pow_lt, P.
    - field. lra. }
  assert (LE : N y <= N x).
  { destruct (MVT_gen N x y dN) as [c [C1 C2]].
    - intros a A. rewrite Rmin_left, Rmax_right in A by lra. apply DN. lra.
    - intros a A. rewrite Rmin_left, Rmax_right in A by lra. apply continuity_pt_filterlim, (ex_derive_continuous N). exists (dN a). apply DN. lra.
    - rewrite Rmin_left, Rmax_right in C1 by lra. assert (P := QP c C1). assert (T := TP c C1).
      assert (dN c <= 0); [|nra]. unfold dN.
      assert (Z : 24 * wv * c ^ 2 * quartic om wr wv c - 3 * (om + 4 * wv * c ^ 3) ^ 2 <= 0).
      { unfold quartic. replace (24 * wv * c ^ 2 * (om * c + wr + wv * c ^ 4) - 3 * (om + 4 * wv * c ^ 3) ^ 2)
          with (3 * (8 * wv * wr * c ^ 2 - om ^ 2) - 24 * (wv * c ^ 3) ^ 2) by ring.
        assert (0 <= (wv * c ^ 3) ^ 2) by apply pow2_ge_0. assert (0 <= om ^ 2) by apply pow2_ge_0.
        assert (C3 : 0 <= c ^ 2 <= 1) by nra.
        assert (8 * wv * wr * c ^ 2 <= om ^ 2); [|lra].
        set (k := 8 * wv * wr) in *. set (u := c ^ 2) in *. set (o := om ^ 2) in *. clearbody k u o. destruct (Rle_dec 0 k); nra. }
      assert (0 < / quartic om wr wv c ^ 4) by (apply Rinv_0_lt_compat, pow_lt, P). unfold Rdiv.
      set (t := om + 4 * wv * c ^ 3) in *. set (i := / quartic om wr wv c ^ 4) in *.
      set (w := 24 * wv * c ^ 2 * quartic om wr wv c - 3 * t ^ 2) in *. clearbody w t i. assert (t * w <= 0) by nra. nra. }
  assert (SL : forall a, x <= a <= y -> slope om wr wv a = - (sqrt (N a) / 2)).
  { intros a A. assert (P := QP a A). assert (T := TP a A). assert (SQ := sqrt_lt_R0 _ P). unfold slope, N.
    rewrite sqrt_div_alt by (apply pow_lt, P). 
    replace ((om + 4 * wv * a ^ 3) ^ 2) with (Rsqr (om + 4 * wv * a ^ 3)) by (unfold Rsqr; ring). rewrite sqrt_Rsqr by exact T.
    replace (quartic om wr wv a ^ 3) with (Rsqr (quartic om wr wv a) * quartic om wr wv a) by (unfold Rsqr; ring).
    rewrite sqrt_mult_alt by apply Rle_0_sqr. rewrite sqrt_Rsqr by lra. field. split; lra. }
  rewrite !SL by lra. assert (sqrt (N y) <= sqrt (N x)) by (apply sqrt_le_1_alt, LE). lra.
Qed.

Lemma C80_accurate_aux : forall h0 om z, 0 < h0 -> 0 <= z -> 0 <= om -> 0 <= om + 4 * (1 - om - radiation (h0 / 100)) ->
  8 * (1 - om - radiation (h0 / 100)) * radiation (h0 / 100) <= om ^ 2 ->
  forall d, comoving_distance h0 om z d ->
    Rabs (fst (fst (calculator h0 om z)) - d) <=
      299792.458 / h0 * ((ln (1 + z) / 1998) ^ 2 *
        ((om + 4 * (1 - om - radiation (h0 / 100)) / (1 + z) ^ 3) * (1 + z) ^ 6 / (2 * expansion om (h0 / 100) z ^ 3))).
Proof.
  intros h0 om z H Z O V CV d [i [J ->]]. set (h := h0 / 100) in *. assert (HP : 0 < h) by (unfold h; lra).
  assert (I := change_variable om h z HP Z O V). rewrite <- (is_RInt_unique _ _ _ _ J), (is_RInt_unique _ _ _ _ I). clear J i.
  set (wr := radiation h) in *. set (wv := 1 - om - wr) in *. set (f := fun a => 1 / a2H om wr wv a) in *.
  assert (W : 0 < wr) by (unfold wr, radiation; apply Rdiv_lt_0_compat; [lra|apply pow_lt; lra]).
  set (az := 1 / (1 + z)) in *.
  assert (AZ : 0 < az <= 1).
  { unfold az. split; [apply Rdiv_lt_0_compat; lra|]. apply Rmult_le_reg_r with (1 + z); [lra|]. replace (1 / (1 + z) * (1 + z)) with 1 by (field; lra). lra. }
  assert (C : fst (fst (calculator h0 om z)) = 299792.458 / h0 * trapz f (logspace (log10 az) 0 1000)).
  { unfold calculator. cbv zeta. cbn [fst]. fold az. unfold f, wv, wr, radiation. fold h. replace (h * h) with (h ^ 2) by ring. reflexivity. }
  rewrite C. rewrite <- Rmult_minus_distr_l, Rabs_mult.
  assert (K : 0 < 299792.458 / h0) by (apply Rdiv_lt_0_compat; lra). rewrite (Rabs_pos_eq (299792.458 / h0)) by lra.
  apply Rmult_le_compat_l; [lra|].
  destruct (nodes az 999 AZ ltac:(lia)) as [rest [E1 [E2 E3]]].
  change (S 999) with 1000%nat in E1, E2, E3. rewrite E1 in *.
  assert (T := trapz_convex f (slope om wr wv) (- ln az / INR 999) 1 rest az E3).
  rewrite E2 in T. specialize (T (Rle_refl 1)).
  specialize (T (fun x X => integrand_derive om wr wv x W O V ltac:(lra))).
  specialize (T (fun x y X Y => slope_mono om wr wv x y W O V CV ltac:(lra) Y)).
  eapply Rle_trans; [exact T|].
  assert (LZ : ln az = - ln (1 + z)) by (unfold az; unfold Rdiv; rewrite Rmult_1_l; apply ln_Rinv; lra).
  rewrite LZ, Ropp_involutive. replace (INR 999) with 999 by (rewrite INR_IZR_INZ; reflexivity).
  replace ((ln (1 + z) / 999) ^ 2 / 4) with ((ln (1 + z) / 1998) ^ 2) by field.
  apply Rmult_le_compat_l; [apply pow2_ge_0|].
  assert (S1 : slope om wr wv 1 <= 0).
  { unfold slope. assert (P := quartic_pos om wr wv 1 W O V ltac:(lra)). assert (SQ := sqrt_lt_R0 _ P).
    set (q := quartic om wr wv 1) in *. replace (1 ^ 3) with 1 by ring.
    assert (0 < / (2 * (q * sqrt q))) by (apply Rinv_0_lt_compat; nra). unfold Rdiv. nra. }
  assert (SA : slope om wr wv az = - ((om + 4 * wv / (1 + z) ^ 3) * (1 + z) ^ 6 / (2 * expansion om h z ^ 3))).
  { unfold slope, expansion. fold wr. fold wv. assert (P := quartic_pos om wr wv az W O V AZ).
    set (E := om * (1 + z) ^ 3 + wr * (1 + z) ^ 4 + wv).
    assert (QE : quartic om wr wv az = E / (1 + z) ^ 4) by (unfold quartic, E, az; field; lra).
    assert (EP : 0 < E).
    { replace E with (quartic om wr wv az * (1 + z) ^ 4) by (rewrite QE; field; lra). apply Rmult_lt_0_compat; [exact P|apply pow_lt; lra]. }
    rewrite QE. rewrite sqrt_div_alt by (apply pow_lt; lra).
    replace ((1 + z) ^ 4) with (Rsqr ((1 + z) ^ 2)) at 2 by (unfold Rsqr; ring). rewrite sqrt_Rsqr by (apply pow_le; lra).
    assert (SQ := sqrt_lt_R0 E EP). assert (SE : sqrt E * sqrt E = E) by (apply sqrt_sqrt; lra).
    set (s := sqrt E) in *. rewrite <- SE. unfold az. field. split; lra. }
  rewrite SA. lra.
Qed.

Lemma C81_zero_aux : forall band f, maginJy 0 band = Some f <->
  In (band, f) [("U", 1810); ("B", 4260); ("V", 3640); ("K", 670); ("g", 3730); ("r", 4490); ("i", 4760); ("z", 4810)]%string.
Proof.
  assert (P : Rpower 10 (0 / - (2.5)) = 1).
  { unfold Rpower. replace (0 / - (2.5) * ln 10) with 0 by (unfold Rdiv; ring). apply exp_0. }
  assert (ONE : forall x, 1 * x = x) by (intros; ring).
  intros band f. unfold maginJy. split.
  - unfold bandflux.
    repeat match goal with |- context [String.eqb band ?c] =>
      destruct (String.eqb_spec band c) as [E|_]; [subst band; intros H; injection H as <-; rewrite P, ONE; cbn [In]; tauto|] end.
    discriminate.
  - intros H. cbn [In] in H.
    repeat (destruct H as [H|H]; [injection H as <- <-; unfold bandflux; cbn [String.eqb Ascii.eqb Bool.eqb]; rewrite P, ONE; reflexivity|]).
    destruct H.
Qed.

Lemma C81_bands_aux : forall (star line : Type) (mags : star -> list R) (near : R -> line -> star -> bool) stars lines band hh,
  (forall k, band_column band = Some k <-> nth_error ["U"; "B"; "V"; "K"; "g"; "r"; "i"; "z"]%string k = Some band) /\
  (~ In band ["U"; "B"; "V"; "K"; "g"; "r"; "i"; "z"]%string ->
   read_stellar_data star line mags near stars lines band hh = KeyErr).
Proof.
  intros star line mags near stars lines band hh. split.
  - intros k. split.
    + unfold band_column.
      repeat match goal with |- context [String.eqb band ?c] =>
        destruct (String.eqb_spec band c) as [E|_]; [subst band; intros H; injection H as <-; reflexivity|] end.
      discriminate.
    + intros H. do 8 (destruct k as [|k]; [injection H as <-; reflexivity|]). destruct k; discriminate H.
  - intros N. unfold read_stellar_data. replace (band_column band) with (@None nat); [reflexivity|].
    symmetry. unfold band_column.
    repeat match goal with |- context [String.eqb band ?c] =>
      destruct (String.eqb_spec band c) as [E|_]; [subst band; exfalso; apply N; cbn [In]; tauto|] end.
    reflexivity.
Qed.
