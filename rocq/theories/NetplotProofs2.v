(** The ratios shown. *)
From Coq Require Import Reals List Bool Arith Lia Lra Permutation.
From Verif Require Import RatesModel RatesSpec RatesProofs IoniseSpec IoniseProofs IoniseProofs2 IoniseProofs3 IoniseProofs4.
From Verif Require Import NetplotModel NetplotSpec NetplotProofs.
From Verif Require GridModel GridProofs3 TempdensModel TempdensSpec TempdensProofs2.
Import ListNotations.
Local Open Scope R_scope.

Lemma middle_is : forall l, l <> [] -> TempdensSpec.is_median l (middle l).
Proof.
  intros l NE. pose proof (TempdensProofs2.C83_median_is l) as M. unfold middle. destruct (TempdensModel.median l); [exact M|contradiction].
Qed.

Lemma middle_pos : forall l, l <> [] -> List.Forall (fun d => 0 < d) l -> 0 < middle l.
Proof.
  intros l NE F. unfold middle, TempdensModel.median. pose proof (TempdensProofs2.sort_perm l) as PM.
  rewrite (Permutation_length PM).
  assert (L : (0 < length l)%nat) by (destruct l; [contradiction|cbn; lia]).
  destruct (Nat.eqb_spec (length l) 0); [lia|].
  assert (P : forall k, (k < length l)%nat -> 0 < nth k (TempdensModel.sort l) 0).
  { intros k K. rewrite Forall_forall in F. apply F. apply (Permutation_in _ PM). apply nth_In. rewrite (Permutation_length PM). exact K. }
  destruct (Nat.odd (length l)) eqn:O.
  - apply P. apply Nat.div_lt; lia.
  - assert (0 < nth (length l / 2 - 1) (TempdensModel.sort l) 0).
    { apply P. pose proof (Nat.div_lt (length l) 2 ltac:(lia) ltac:(lia)). lia. }
    assert (0 < nth (length l / 2) (TempdensModel.sort l) 0) by (apply P; apply Nat.div_lt; lia). lra.
Qed.

Lemma nth_some_lt : forall (A : Type) (l : list A) i a, nth_error l i = Some a -> (i < length l)%nat.
Proof. intros A l i a E. apply nth_error_Some. rewrite E. discriminate. Qed.

Lemma zip3_nth : forall f a b c i x y z, nth_error a i = Some x -> nth_error b i = Some y -> nth_error c i = Some z ->
  nth_error (zip3 f a b c) i = Some (f x y z).
Proof.
  intros f. induction a as [|x0 a IH]; intros [|y0 b] [|z0 c] [|i] x y z A B C; cbn in *; try discriminate.
  - injection A as <-. injection B as <-. injection C as <-. reflexivity.
  - now apply IH.
Qed.

Section net.
Variables (n : network) (mi : nat).
Hypothesis SH : shipped (recomb n).
Hypothesis PF : 0 < photo_factor n.
Hypothesis SS : selfshield n = false.
Variables (gridd gridt : list R).
Hypothesis L : length gridd = length gridt.
Hypothesis D : List.Forall (fun d => 0 < d) gridd.
Hypothesis U : List.Forall (fun e => 0 < e) gridt.

Lemma shown_nth : forall ts, shown_temp n mi gridd gridt = Value ts ->
  length ts = length gridt /\
  forall i e, nth_error gridt i = Some e -> exists s m, nth_error ts i = Some s /\
    TempdensSpec.is_median gridd (middle gridd) /\ settled n (converge n) (middle gridd) e m s.
Proof.
  intros ts E. unfold shown_temp in E.
  destruct gridd as [|d0 gd] eqn:GD.
  - destruct gridt as [|e0 gt]; [|discriminate]. cbn [map] in E.
    destruct (network_temp_nth n mi SH PF SS [] [] ts eq_refl ltac:(constructor) ltac:(constructor) E) as [A _].
    split; [exact A|]. intros [|i] e N; discriminate.
  - assert (NE : d0 :: gd <> []) by discriminate. pose proof (middle_pos _ NE D) as MP. rewrite <- GD in *.
    destruct (network_temp_nth n mi SH PF SS (map (fun _ => middle gridd) gridt) gridt ts) as [A B]; auto.
    { now rewrite map_length. }
    { apply Forall_forall. intros x X. apply in_map_iff in X as (y & <- & _). exact MP. }
    split; [exact A|]. intros i e N. destruct (B i (middle gridd) e) as (t & m & Nt & ST); auto.
    { rewrite nth_error_map, N. reflexivity. }
    exists t, m. split; [exact Nt|]. split; [|exact ST]. apply middle_is. rewrite GD. discriminate.
Qed.

Lemma g_is : gH0 n = Rpower 10 (lg_gH0 n).
Proof. reflexivity. Qed.

Lemma C121_simple_aux : forall rs, simple_ratio n mi gridd gridt = Value rs ->
  length rs = length gridd /\
  forall i d u r, nth_error gridd i = Some d -> nth_error gridt i = Some u -> nth_error rs i = Some r ->
  exists med m t m' s a, TempdensSpec.is_median gridd med /\ settled n (converge n) d u m t /\ settled n (converge n) med u m' s /\
    0 < a <= 1 /\ r * (alphaHp (recomb n) s * (0.76 * d) * (1 + 2 * (0.24 / (4 * 0.76)))) = a * Rpower 10 (lg_gH0 n) /\
    (1e-40 < m / (0.76 * d) -> hydrogen_at n m t a (1 - a) /\
       r * photo_factor n * alphaHp (recomb n) s <= alphaHp (recomb n) t /\
       (s <= t -> within (recomb n) t -> r * photo_factor n <= 1)).
Proof.
  intros rs E. unfold simple_ratio, simplenh0frac, obind in E.
  destruct (get_neutral_fraction n mi gridd gridt 0.24) as [fs| | |] eqn:F; try discriminate.
  destruct (shown_temp n mi gridd gridt) as [ts| | |] eqn:T; try discriminate. injection E as <-.
  destruct (neutral_nth n mi SH PF SS gridd gridt fs L D U F) as [LF NF]. destruct (shown_nth ts T) as [LT NT].
  set (g := fun d t => (1 - 0.24) * d * (alphaHp (recomb n) t / gH0 n * (1 + 2 * (0.24 / (4 - 4 * 0.24))))).
  assert (LZ : length (zip2 g gridd ts) = length gridd) by (rewrite zip2_length; congruence).
  split; [rewrite zip2_length; congruence|]. intros i d u r Nd Nu Nr.
  apply zip2_nth in Nr as (f & z & Nf & Nz & ->). apply zip2_nth in Nz as (d' & s & Nd' & Ns & ->).
  rewrite Nd in Nd'. injection Nd' as <-.
  destruct (NF i d u f Nd Nu Nf) as (D0 & U0 & F01 & m & t & ST & HB).
  destruct (NT i u Nu) as (s' & m' & Ns' & MED & ST'). rewrite Ns in Ns'. injection Ns' as <-.
  pose proof (good_shipped _ SH) as GOOD.
  destruct (GOOD s (proj1 ST')) as (AS & _). destruct (GOOD t (proj1 ST)) as (AT & _ & _ & _ & GT & _). destruct (gpos n) as (GP & _).
  pose proof PF as PF'.
  rewrite <- g_is.
  assert (EQ : f / g d s * (alphaHp (recomb n) s * (0.76 * d) * (1 + 2 * (0.24 / (4 * 0.76)))) = f * gH0 n).
  { unfold g. replace (1 - 0.24) with 0.76 by lra. replace (4 - 4 * 0.24) with (4 * 0.76) by lra.
    assert (K : 0 < 1 + 2 * (0.24 / (4 * 0.76))) by lra. set (k := 1 + 2 * (0.24 / (4 * 0.76))) in *.
    assert (K' : 0 < 0.76) by lra. set (q := 0.76) in *. clearbody k q. field. repeat split; lra. }
  exists (middle gridd), m, t, m', s, f. split; [exact MED|]. split; [exact ST|]. split; [exact ST'|]. split; [exact F01|].
  split; [exact EQ|]. intros X. specialize (HB X). split; [exact HB|].
  set (r := f / g d s) in *. clearbody r. clear g LZ.
  assert (B1 : r * photo_factor n * alphaHp (recomb n) s <= alphaHp (recomb n) t).
  { unfold hydrogen_at, hydrogen_balance in HB. destruct HB as [_ HB]. rewrite <- g_is in HB.
    destruct ST as (_ & (M0 & M1) & _). set (k := 1 + 2 * (0.24 / (4 * 0.76))) in *. assert (K : 0 < k) by (unfold k; lra).
    set (nh := 0.76 * d) in *. assert (N : 0 < nh) by (unfold nh; lra).
    set (coll := (if collisional n then 1 else 0) * GammaeH0 (recomb n) t) in *.
    assert (CP : 0 <= coll) by (unfold coll; destruct (collisional n); lra).
    set (al := alphaHp (recomb n) t) in *. set (as_ := alphaHp (recomb n) s) in *. set (gg := gH0 n) in *. set (p := photo_factor n) in *.
    clearbody k nh coll al as_ gg p.
    assert (F1 : f * (gg * p) <= al * m).
    { assert (0 <= f * (coll * m)) by (repeat apply Rmult_le_pos; lra).
      assert (0 <= f * (al * m)) by (repeat apply Rmult_le_pos; lra). lra. }
    apply Rmult_le_reg_r with (nh * k). apply Rmult_lt_0_compat; lra.
    replace (r * p * as_ * (nh * k)) with (r * (as_ * nh * k) * p) by ring. rewrite EQ.
    apply Rle_trans with (al * m). lra. replace (al * (nh * k)) with (al * (k * nh)) by ring. apply Rmult_le_compat_l; lra. }
  split; [exact B1|]. intros ST2 W.
  assert (MONO : alphaHp (recomb n) t <= alphaHp (recomb n) s).
  { destruct ST2 as [LT2 | <-]; [|lra]. destruct (responds n t s W (proj1 ST') LT2) as (A & _). lra. }
  apply Rmult_le_reg_r with (alphaHp (recomb n) s). lra. lra.
Qed.

Lemma C121_electrons_aux : forall rs, ne_ratio n mi gridd gridt = Value rs ->
  length rs = length gridd /\
  forall i d u r, nth_error gridd i = Some d -> nth_error gridt i = Some u -> nth_error rs i = Some r ->
  exists m t, settled n (converge n) d u m t /\ 0 <= r <= 1 /\ r * ((1 + 2 * (0.24 / (4 * 0.76))) * (0.76 * d)) = m.
Proof.
  intros rs E. unfold ne_ratio, get_ne_by_nh, obind in E.
  destruct (get_equilib_ne n mi gridd gridt 0.24) as [ne| | |] eqn:F; try discriminate. injection E as <-.
  destruct (equilib n mi SH PF SS gridd gridt ne L D U F) as [LN ALL].
  split; [rewrite map_length, zip2_length; rewrite map_length; auto|]. intros i d u r Nd Nu Nr.
  rewrite nth_error_map in Nr. destruct (nth_error (zip2 Rdiv ne (map (fun d => d * (1 - 0.24)) gridd)) i) as [x|] eqn:Nx; [|discriminate].
  cbn [option_map] in Nr. injection Nr as <-. apply zip2_nth in Nx as (m & h & Nm & Nh & ->).
  rewrite nth_error_map, Nd in Nh. cbn [option_map] in Nh. injection Nh as <-.
  destruct (ALL i d u m Nd Nu Nm) as (D0 & U0 & t & _ & ST). exists m, t. split; [exact ST|].
  destruct ST as (_ & (M0 & M1) & _). replace (d * (1 - 0.24)) with (0.76 * d) by lra. replace (4 - 4 * 0.24) with (4 * 0.76) by lra.
  set (k := 1 + 2 * (0.24 / (4 * 0.76))) in *. assert (K : 0 < k) by (unfold k; lra).
  set (nh := 0.76 * d) in *. assert (N : 0 < nh) by (unfold nh; lra). clearbody k nh.
  assert (EQ : m / nh / k * (k * nh) = m) by (field; lra). split; [|exact EQ].
  assert (P : 0 < k * nh) by (apply Rmult_lt_0_compat; lra).
  split; [apply Rmult_le_reg_r with (k * nh) | apply Rmult_le_reg_r with (k * nh)]; try exact P; lra.
Qed.

Lemma C122_helium_aux : forall rs, he_ratio n mi gridd gridt = Value rs ->
  length rs = length gridd /\
  forall i d u r, nth_error gridd i = Some d -> nth_error gridt i = Some u -> nth_error rs i = Some r ->
  exists med m t m' s, TempdensSpec.is_median gridd med /\ settled n (converge n) d u m t /\ settled n (converge n) med u m' s /\
    (1e-40 < m -> forall he0 he1 he2, helium_at n m s he0 he1 he2 ->
       (r * he2 = he1 <-> 0.76 * d = 1) /\ (0.76 * d < 1 -> 0 < r * he2 < he1) /\
       (collisional n = false -> r * he2 = 0.76 * d * he1)).
Proof.
  intros rs E. unfold he_ratio, obind in E.
  destruct (get_equilib_ne n mi gridd gridt 0.24) as [ne| | |] eqn:F; try discriminate.
  destruct (shown_temp n mi gridd gridt) as [ts| | |] eqn:T; try discriminate. injection E as <-.
  destruct (equilib n mi SH PF SS gridd gridt ne L D U F) as [LN ALL]. destruct (shown_nth ts T) as [LT NT].
  set (nh := map (fun d => (1 - 0.24) * d) gridd). assert (LH : length nh = length gridd) by apply map_length.
  split.
  { rewrite zip2_length; rewrite !zip3_length; congruence. }
  intros i d u r Nd Nu Nr. apply zip2_nth in Nr as (p & q & Np & Nq & ->).
  destruct (GridProofs3.nth_some_len _ ne i) as (m & Nm). { rewrite LN. eapply nth_some_lt; eauto. }
  destruct (ALL i d u m Nd Nu Nm) as (D0 & U0 & t & _ & ST).
  destruct (NT i u Nu) as (s & m' & Ns & MED & ST').
  assert (Nh : nth_error nh i = Some (0.76 * d)).
  { unfold nh. rewrite nth_error_map, Nd. cbn [option_map]. f_equal. lra. }
  rewrite (zip3_nth _ nh ts ne i _ _ _ Nh Ns Nm) in Np. rewrite (zip3_nth _ nh ts ne i _ _ _ Nh Ns Nm) in Nq. injection Np as <-. injection Nq as <-.
  exists (middle gridd), m, t, m', s. split; [exact MED|]. split; [exact ST|]. split; [exact ST'|].
  intros X he0 he1 he2 (SUM & HB0 & HB1).
  pose proof (good_shipped _ SH) as GOOD. destruct (GOOD s (proj1 ST')) as (_ & HEP & DI & A2 & _ & G0 & G1).
  destruct (gpos n) as (_ & GP0 & GP1). pose proof PF as PF'.
  set (h := 0.76 * d) in *. assert (H : 0 < h) by (unfold h; lra). clearbody h. cbv zeta in *.
  fold (gHe0 n) (gHep n) in HB0, HB1.
  assert (PH : photofac n m h s = photo_factor n / (m * h)).
  { unfold photofac, self_shield_corr. rewrite SS. destruct (Rlt_dec 1e-40 m); [|lra]. now rewrite Rmult_1_r. }
  set (f := photo_factor n) in *. assert (M : 0 < m) by lra.
  set (coll := if collisional n then 1 else 0) in *. assert (CC : 0 <= coll) by (unfold coll; destruct (collisional n); lra).
  assert (EI0 : ionHe0 n h s m = coll * GammaeHe0 (recomb n) s + gHe0 n * (f / (m * h))).
  { unfold ionHe0. rewrite PH. unfold coll. now rewrite b2r_if. }
  assert (EI1 : ionHep n h s m = coll * GammaeHep (recomb n) s + gHep n * (f / (m * h))).
  { unfold ionHep. rewrite PH. unfold coll. now rewrite b2r_if. }
  assert (FM : 0 < f / (m * h)) by (apply Rdiv_pos; [lra|apply Rmult_lt_0_compat; lra]).
  assert (C0 : 0 <= coll * GammaeHe0 (recomb n) s) by (apply Rmult_le_pos; lra).
  assert (C1 : 0 <= coll * GammaeHep (recomb n) s) by (apply Rmult_le_pos; lra).
  assert (I0 : 0 < ionHe0 n h s m). { rewrite EI0. assert (0 < gHe0 n * (f / (m * h))) by (apply Rmult_lt_0_compat; lra). lra. }
  assert (I1 : 0 < ionHep n h s m). { rewrite EI1. assert (0 < gHep n * (f / (m * h))) by (apply Rmult_lt_0_compat; lra). lra. }
  assert (RP : 0 < recHep n s) by (unfold recHep; lra).
  assert (NP : 0 < nHep n h s m).
  { unfold nHep. destruct (Req_EM_T (ionHe0 n h s m) 0); [lra|].
    pose proof (Rdiv_pos _ _ RP I0). pose proof (Rdiv_pos _ _ I1 A2). apply Rdiv_pos; lra. }
  assert (ER : nHep n h s m / nHepp n h s m = alphaHepp (recomb n) s / ionHep n h s m).
  { unfold nHepp. field. repeat split; lra. }
  rewrite ER, EI1. clear ER EI0 I0 NP PH.
  assert (GC : coll = 0 \/ coll = 1) by (unfold coll; destruct (collisional n); lra).
  assert (GF : collisional n = false -> coll * GammaeHep (recomb n) s = 0) by (unfold coll; intros ->; lra).
  rewrite EI1 in I1. clear EI1 FM.
  set (c1 := coll * GammaeHep (recomb n) s) in *. set (al := alphaHepp (recomb n) s) in *. set (g := gHep n) in *.
  set (c0 := coll * GammaeHe0 (recomb n) s) in *. set (g0 := gHe0 n) in *. set (re := alphaHep (recomb n) s + alphad (recomb n) s) in *.
  assert (RE : 0 < re) by (unfold re; lra). clearbody c1 al g c0 g0 re f coll.
  assert (P0 : 0 < g0 * f + c0 * m). { assert (0 < g0 * f) by (apply Rmult_lt_0_compat; lra). assert (0 <= c0 * m) by (apply Rmult_le_pos; lra). lra. }
  assert (P1 : 0 < g * f + c1 * m). { assert (0 < g * f) by (apply Rmult_lt_0_compat; lra). assert (0 <= c1 * m) by (apply Rmult_le_pos; lra). lra. }
  assert (GFP : 0 < g * f) by (apply Rmult_lt_0_compat; lra).
  assert (Q0 : he0 = he1 * (re * m / (g0 * f + c0 * m))).
  { apply Rmult_eq_reg_r with (g0 * f + c0 * m); [|lra]. rewrite HB0. field. lra. }
  assert (Q2 : he2 = he1 * ((g * f + c1 * m) / (al * m))).
  { assert (0 < al * m) by (apply Rmult_lt_0_compat; lra). apply Rmult_eq_reg_r with (al * m); [|lra].
    transitivity (he1 * (g * f + c1 * m)). lra. field. lra. }
  assert (H1 : 0 < he1).
  { assert (K0 : 0 < re * m / (g0 * f + c0 * m)) by (apply Rdiv_pos; [apply Rmult_lt_0_compat; lra|lra]).
    assert (K2 : 0 < (g * f + c1 * m) / (al * m)) by (apply Rdiv_pos; [lra|apply Rmult_lt_0_compat; lra]).
    destruct (Rlt_dec 0 he1) as [|NN]; [assumption|]. exfalso.
    set (k0 := re * m / (g0 * f + c0 * m)) in *. set (k2 := (g * f + c1 * m) / (al * m)) in *. clearbody k0 k2.
    assert (0 <= - he1 * k0) by (apply Rmult_le_pos; lra). assert (0 <= - he1 * k2) by (apply Rmult_le_pos; lra). lra. }
  assert (DN : 0 < c1 * m * h + g * f).
  { assert (0 <= c1 * m * h) by (repeat apply Rmult_le_pos; lra). lra. }
  assert (EQ : al / (c1 + g * (f / (m * h))) * he2 = he1 * ((g * f + c1 * m) * h / (c1 * m * h + g * f))).
  { rewrite Q2. field. repeat split; lra. }
  rewrite EQ.
  assert (DD : he1 * ((g * f + c1 * m) * h / (c1 * m * h + g * f)) - he1 = he1 * (g * f / (c1 * m * h + g * f)) * (h - 1)) by (field; lra).
  assert (K : 0 < he1 * (g * f / (c1 * m * h + g * f))) by (apply Rmult_lt_0_compat; [lra|apply Rdiv_pos; lra]).
  set (k := he1 * (g * f / (c1 * m * h + g * f))) in *. clearbody k.
  split; [|split].
  - split; intros Z.
    + assert (Z' : k * (h - 1) = 0) by lra. apply Rmult_integral in Z' as [Z'|Z']; lra.
    + assert (k * (h - 1) = 0) by (rewrite Z; ring). lra.
  - intros LT1. split.
    + apply Rmult_lt_0_compat; [lra|]. apply Rdiv_pos; [apply Rmult_lt_0_compat; lra|lra].
    + assert (0 < k * (1 - h)) by (apply Rmult_lt_0_compat; lra). lra.
  - intros NC. rewrite (GF NC). field. lra.
Qed.
End net.

Lemma C121_collis_aux : forall n mi gridd gridt rs, shipped (recomb n) -> 0 < photo_factor n -> selfshield n = false ->
  length gridd = length gridt -> List.Forall (fun d => 0 < d) gridd -> List.Forall (fun e => 0 < e) gridt ->
  collis_ratio (colliding n true) (colliding n false) mi gridd gridt = Value rs ->
  length rs = length gridd /\
  forall i d u r, nth_error gridd i = Some d -> nth_error gridt i = Some u -> nth_error rs i = Some r ->
  exists m t m' t' a a', settled (colliding n true) (converge n) d u m t /\ settled (colliding n false) (converge n) d u m' t' /\
    0 < a <= 1 /\ 0 < a' <= 1 /\ r = a / a' /\
    (1e-40 < m / (0.76 * d) -> hydrogen_at (colliding n true) m t a (1 - a)) /\
    (1e-40 < m' / (0.76 * d) -> hydrogen_at (colliding n false) m' t' a' (1 - a')).
Proof.
  intros n mi gridd gridt rs SH PF SS L D U E. unfold collis_ratio, obind in E.
  destruct (get_neutral_fraction (colliding n true) mi gridd gridt 0.24) as [fs| | |] eqn:F; try discriminate.
  destruct (get_neutral_fraction (colliding n false) mi gridd gridt 0.24) as [fs'| | |] eqn:F'; try discriminate. injection E as <-.
  destruct (neutral_nth (colliding n true) mi SH PF SS gridd gridt fs L D U F) as [LF NF].
  destruct (neutral_nth (colliding n false) mi SH PF SS gridd gridt fs' L D U F') as [LF' NF'].
  split; [rewrite zip2_length; congruence|]. intros i d u r Nd Nu Nr.
  apply zip2_nth in Nr as (f & f' & Nf & Nf' & ->).
  destruct (NF i d u f Nd Nu Nf) as (_ & _ & F01 & m & t & ST & HB). destruct (NF' i d u f' Nd Nu Nf') as (_ & _ & F01' & m' & t' & ST' & HB').
  exists m, t, m', t', f, f'. repeat split; try apply ST; try apply ST'; try lra; auto; intros; try (now apply HB); now apply HB'.
Qed.

Lemma C122_hydrogen_aux : forall n mi gridd gridt fs, shipped (recomb n) -> 0 < photo_factor n -> selfshield n = false ->
  length gridd = length gridt -> List.Forall (fun d => 0 < d) gridd -> List.Forall (fun e => 0 < e) gridt ->
  get_neutral_fraction n mi gridd gridt 0.24 = Value fs ->
  length fs = length gridd /\
  forall i d u f, nth_error gridd i = Some d -> nth_error gridt i = Some u -> nth_error fs i = Some f ->
  exists m t, settled n (converge n) d u m t /\
    (1e-40 < m / (0.76 * d) -> forall a b, hydrogen_at n m t a b -> f = a /\ 0 < b < 1 /\ f < a / b /\ f * (1 + a / b) = a / b).
Proof.
  intros n mi gridd gridt fs SH PF SS L D U E.
  destruct (neutral_nth n mi SH PF SS gridd gridt fs L D U E) as [LF NF]. split; [exact LF|]. intros i d u f Nd Nu Nf.
  destruct (NF i d u f Nd Nu Nf) as (D0 & U0 & F01 & m & t & ST & HB). exists m, t. split; [exact ST|]. intros X a b HAB.
  specialize (HB X). destruct (balances n SH PF SS (0.76 * d) t (m / (0.76 * d)) ltac:(lra) (proj1 ST) X) as [B1 _].
  replace (m / (0.76 * d) * (0.76 * d)) with m in B1 by (field; lra).
  pose proof HAB as HAB'. apply B1 in HAB as [EA EB]. apply B1 in HB as [EF EF'].
  assert (FA : a = f) by congruence. assert (H0 : b = 1 - f) by congruence. rewrite FA in *. clear EA. split; [reflexivity|].
  assert (M : 0 < m). { destruct (Rlt_dec 0 m) as [|NN]; [assumption|]. exfalso. destruct ST as (_ & (M0 & _) & _). replace m with 0 in X by lra.
    unfold Rdiv in X. rewrite Rmult_0_l in X. lra. }
  assert (B : 0 < b).
  { destruct (Rlt_dec 0 b) as [|NN]; [assumption|]. exfalso. assert (H1 : b = 0) by lra. destruct HAB' as [_ HB2].
    rewrite H1 in HB2. pose proof (good_shipped _ SH) as GOOD. destruct (GOOD t (proj1 ST)) as (_ & _ & _ & _ & GT & _).
    destruct (gpos n) as (GP & _). fold (gH0 n) in HB2.
    assert (0 < gH0 n * photo_factor n) by (apply Rmult_lt_0_compat; lra).
    assert (0 <= (if collisional n then 1 else 0) * GammaeH0 (recomb n) t * m) by (apply Rmult_le_pos; [destruct (collisional n)|]; lra).
    assert (0 < f * (gH0 n * photo_factor n + (if collisional n then 1 else 0) * GammaeH0 (recomb n) t * m)) by (apply Rmult_lt_0_compat; lra). lra. }
  split; [lra|]. assert (EQ : f * (1 + f / b) = f / b) by (rewrite H0; field; lra). split; [|exact EQ].
  assert (0 < f * (f / b)) by (apply Rmult_lt_0_compat; [lra|apply Rdiv_pos; lra]). lra.
Qed.
