(** Medians and overdensities (C83). *)
From Coq Require Import List Bool Reals Permutation Sorted Lia Lra.
From Verif Require Import QuantModel GaspropModel GaspropSpec GaspropProofs OmegaModel TempdensModel TempdensSpec TempdensProofs.
Import ListNotations.
Local Open Scope R_scope.

(** ** The median *)

Lemma insert_perm : forall x l, Permutation (insert x l) (x :: l).
Proof.
  intros x l. induction l as [|y l IH]; [constructor; constructor|]. cbn [insert]. destruct (Rle_dec x y); [apply Permutation_refl|].
  eapply Permutation_trans; [apply perm_skip, IH|apply perm_swap].
Qed.

Lemma sort_perm : forall l, Permutation (sort l) l.
Proof.
  induction l as [|x l IH]; [constructor|]. change (sort (x :: l)) with (insert x (sort l)).
  eapply Permutation_trans; [apply insert_perm|apply perm_skip, IH].
Qed.

Lemma insert_sorted : forall x l, StronglySorted Rle l -> StronglySorted Rle (insert x l).
Proof.
  intros x l H. induction H as [|y l ST IH F]; [constructor; constructor|]. cbn [insert]. destruct (Rle_dec x y) as [L|L].
  - constructor; [constructor; assumption|]. constructor; [exact L|]. eapply Forall_impl; [|exact F]. intros z Z. lra.
  - constructor; [exact IH|]. eapply Permutation_Forall; [apply Permutation_sym, insert_perm|]. constructor; [lra|exact F].
Qed.

Lemma sort_sorted : forall l, StronglySorted Rle (sort l).
Proof. induction l as [|x l IH]; [constructor|]. change (sort (x :: l)) with (insert x (sort l)). apply insert_sorted, IH. Qed.

Lemma count_perm : forall p l l', Permutation l l' -> count p l = count p l'.
Proof. intros p l l' PM. unfold count. apply Permutation_length, perm_filter, PM. Qed.

Lemma count_le_len : forall p l, (count p l <= length l)%nat.
Proof. intros p l. unfold count. induction l as [|x l IH]; [cbn; lia|]. cbn [filter]. destruct (p x); cbn [length]; lia. Qed.

Lemma filter_all : forall (p : R -> bool) l, (forall x, In x l -> p x = true) -> filter p l = l.
Proof. intros p l H. induction l as [|x l IH]; [reflexivity|]. cbn [filter]. rewrite H by (left; auto). rewrite IH by (intros; apply H; right; auto). reflexivity. Qed.

Definition le_x (x y : R) : bool := if Rle_dec y x then true else false.
Definition ge_x (x y : R) : bool := if Rle_dec x y then true else false.

Lemma cnt_le : forall x s, StronglySorted Rle s -> forall k, (k < length s)%nat -> ((k < count (le_x x) s)%nat <-> nth k s 0 <= x).
Proof.
  intros x s H. induction H as [|a s ST IH F]; intros k K; [cbn in K; lia|]. unfold count in *. cbn [filter].
  destruct (Rle_dec a x) as [L|L].
  - replace (le_x x a) with true by (unfold le_x; destruct (Rle_dec a x); [reflexivity|contradiction]). cbn [length].
    destruct k as [|k]; [cbn [nth]; split; [auto|lia]|]. cbn [nth length] in *. rewrite <- IH by lia. lia.
  - replace (le_x x a) with false by (unfold le_x; destruct (Rle_dec a x); [contradiction|reflexivity]).
    assert (Z : filter (le_x x) s = []).
    { clear - F L. induction F as [|b t B F IH]; [reflexivity|]. cbn [filter]. unfold le_x at 1. destruct (Rle_dec b x); [lra|exact IH]. }
    rewrite Z. cbn [length]. split; [lia|]. intros N. exfalso. destruct k as [|k]; cbn [nth] in N; [lra|].
    rewrite Forall_forall in F. assert (I := F (nth k s 0) (nth_In s 0 (proj2 (Nat.succ_lt_mono _ _) K))). lra.
Qed.

Lemma cnt_ge : forall x s, StronglySorted Rle s -> forall k, (k < length s)%nat -> ((length s - k <= count (ge_x x) s)%nat <-> x <= nth k s 0).
Proof.
  intros x s H. induction H as [|a s ST IH F]; intros k K; [cbn in K; lia|].
  destruct (Rle_dec x a) as [L|L].
  - assert (Z : filter (ge_x x) (a :: s) = a :: s).
    { assert (FF : Forall (fun b => x <= b) (a :: s)) by (constructor; [exact L|]; eapply Forall_impl; [|exact F]; intros; cbv beta in *; lra).
      apply filter_all. rewrite Forall_forall in FF. intros b B. unfold ge_x. destruct (Rle_dec x b) as [_|N]; [reflexivity|exfalso; apply N, FF, B]. }
    unfold count. rewrite Z. split; [|lia]. intros _. destruct k as [|k]; cbn [nth]; [exact L|].
    rewrite Forall_forall in F. cbn [length] in K. assert (I := F (nth k s 0) (nth_In s 0 (proj2 (Nat.succ_lt_mono _ _) K))). lra.
  - assert (Z : count (ge_x x) (a :: s) = count (ge_x x) s).
    { unfold count. cbn [filter]. unfold ge_x at 1. destruct (Rle_dec x a); [contradiction|reflexivity]. }
    rewrite Z. assert (CL := count_le_len (ge_x x) s). destruct k as [|k]; cbn [nth length] in *; [split; [lia|lra]|]. rewrite <- IH by lia.
    replace (S (length s) - S k)%nat with (length s - k)%nat by lia. reflexivity.
Qed.

Lemma halves_sorted : forall l x, l <> [] ->
  (halves l x <-> nth (Nat.div (length l - 1) 2) (sort l) 0 <= x <= nth (Nat.div (length l) 2) (sort l) 0).
Proof.
  intros l x NE. set (s := sort l). assert (PM : Permutation s l) by apply sort_perm. assert (ST : StronglySorted Rle s) by apply sort_sorted.
  assert (LS : length s = length l) by (apply Permutation_length, PM).
  unfold halves. change (fun y => if Rle_dec y x then true else false) with (le_x x). change (fun y => if Rle_dec x y then true else false) with (ge_x x).
  rewrite <- (count_perm (le_x x) s l PM), <- (count_perm (ge_x x) s l PM), <- LS in *.
  assert (N : (0 < length s)%nat) by (rewrite LS; destruct l; [congruence|cbn; lia]).
  set (n := length s) in *.
  assert (D1 := Nat.div_mod_eq (n - 1) 2). assert (M1 := Nat.mod_upper_bound (n - 1) 2 ltac:(lia)).
  assert (D2 := Nat.div_mod_eq n 2). assert (M2 := Nat.mod_upper_bound n 2 ltac:(lia)).
  set (k1 := Nat.div (n - 1) 2) in *. set (k2 := Nat.div n 2) in *.
  rewrite <- (cnt_le x s ST k1) by (fold n; lia). rewrite <- (cnt_ge x s ST k2) by (fold n; lia). fold n.
  split; intros [A B]; split; lia.
Qed.

Lemma C83_median_is : forall l, match median l with Some m => is_median l m | None => l = [] end.
Proof.
  intros l. unfold median. assert (LS : length (sort l) = length l) by (apply Permutation_length, sort_perm). rewrite LS.
  destruct (Nat.eqb_spec (length l) 0) as [Z|Z]; [destruct l; [reflexivity|discriminate]|].
  assert (NE : l <> []) by (destruct l; [cbn in Z; lia|discriminate]).
  assert (H := halves_sorted l). set (n := length l) in *.
  assert (D1 := Nat.div_mod_eq (n - 1) 2). assert (M1 := Nat.mod_upper_bound (n - 1) 2 ltac:(lia)).
  assert (D2 := Nat.div_mod_eq n 2). assert (M2 := Nat.mod_upper_bound n 2 ltac:(lia)).
  assert (LE : nth (Nat.div (n - 1) 2) (sort l) 0 <= nth (Nat.div n 2) (sort l) 0).
  { assert (ST := sort_sorted l). rewrite <- (cnt_le _ (sort l) ST) by (rewrite LS; fold n; lia).
    assert (C : (Nat.div n 2 < count (le_x (nth (Nat.div n 2) (sort l) 0%R)) (sort l))%nat) by (apply cnt_le; [exact ST|rewrite LS; fold n; lia|lra]).
    assert ((n - 1) / 2 <= n / 2)%nat by lia. lia. }
  destruct (Nat.odd n) eqn:O.
  - exists (nth (Nat.div (n - 1) 2) (sort l) 0), (nth (Nat.div n 2) (sort l) 0).
    split; [intros x; apply H, NE|]. split; [exact LE|].
    assert (E : Nat.div (n - 1) 2 = Nat.div n 2). { apply Nat.odd_spec in O as [m M]. lia. }
    rewrite E. lra.
  - exists (nth (Nat.div (n - 1) 2) (sort l) 0), (nth (Nat.div n 2) (sort l) 0).
    split; [intros x; apply H, NE|]. split; [exact LE|].
    assert (E : (Nat.div n 2 - 1)%nat = Nat.div (n - 1) 2).
    { assert (EV : Nat.even n = true) by (rewrite <- Nat.negb_odd, O; reflexivity). apply Nat.even_spec in EV as [m M]. lia. }
    rewrite E. reflexivity.
Qed.

Lemma is_median_unique : forall l m m', is_median l m -> is_median l m' -> m = m'.
Proof.
  intros l m m' [lo [hi [H [L ->]]]] [lo' [hi' [H' [L' ->]]]].
  assert (A : forall x, lo <= x <= hi <-> lo' <= x <= hi') by (intros x; rewrite <- H; apply H').
  destruct (proj1 (A lo) ltac:(lra)), (proj1 (A hi) ltac:(lra)), (proj2 (A lo') ltac:(lra)), (proj2 (A hi') ltac:(lra)). lra.
Qed.

Lemma C83_median_aux : forall pts near, Permutation near (map snd (filter (fun p => near_mean (fst p)) pts)) ->
  forall m, get_temp_meandensity pts = Some m <-> near <> [] /\ is_median near m.
Proof.
  intros pts near PM m. unfold get_temp_meandensity.
  assert (FE : filter (fun p => ltb 0.95 (fst p) && ltb (fst p) 1.05) pts = filter (fun p => near_mean (fst p)) pts).
  { clear. induction pts as [|p pts IH]; [reflexivity|]. cbn [filter]. rewrite IH. unfold near_mean, ltb.
    destruct (Rlt_dec 0.95 (fst p)), (Rlt_dec (fst p) 1.05); reflexivity. }
  rewrite FE. set (l := map snd _) in *.
  assert (MP : forall x, is_median near x <-> is_median l x).
  { intros x. assert (HP : forall y, halves near y <-> halves l y).
    { intros y. unfold halves. rewrite !(count_perm _ near l PM), (Permutation_length PM). reflexivity. }
    unfold is_median. split; intros [lo [hi [H R0]]]; exists lo, hi; (split; [intros y; rewrite <- H; rewrite HP; reflexivity|exact R0]). }
  assert (C := C83_median_is l). rewrite MP.
  assert (NE : near <> [] <-> l <> []).
  { split; intros N E; apply N; [rewrite E in PM; apply Permutation_sym in PM; apply Permutation_nil in PM; exact PM|rewrite E in PM; apply Permutation_nil in PM; exact PM]. }
  rewrite NE. destruct (median l) as [m0|] eqn:E.
  - split.
    + intros Q; injection Q as <-. split; [|exact C]. intros Z. rewrite Z in E. discriminate E.
    + intros [_ I]. f_equal. apply (is_median_unique l); assumption.
  - split; [discriminate|]. intros [N _]. contradiction.
Qed.

(** ** Overdensities *)

Lemma mean_is : forall h z u ob, mean_density h z u ob = mean_baryons h z ob / 1.67262178e-24.
Proof.
  intros h z u ob. unfold mean_density, mean_baryons, rho_crit. fold protonmass. assert (P := proton_pos). assert (PI0 := PI_RGT_0).
  set (hh := 3.2407789e-18). assert (G : 0 < 6.674e-8) by lra. set (g := 6.674e-8) in *. set (p := protonmass) in *. clearbody p hh g.
  field. repeat split; lra.
Qed.

Lemma mean_pos : forall h z ob, 0 < h -> -1 < z -> 0 < ob -> 0 < mean_baryons h z ob.
Proof.
  intros h z ob H Z O. unfold mean_baryons. assert (PI0 := PI_RGT_0). assert (A : 0 < 3.2407789e-18) by lra. assert (G : 0 < 6.674e-8) by lra.
  set (a := 3.2407789e-18) in *. set (g := 6.674e-8) in *. clearbody a g.
  apply Rmult_lt_0_compat; [|apply pow_lt; lra]. apply Rmult_lt_0_compat; [exact O|]. apply Rdiv_lt_0_compat; [|nra].
  apply Rmult_lt_0_compat; [lra|]. apply pow_lt. nra.
Qed.

Lemma log10_div : forall a b, 0 < a -> 0 < b -> log10 a - log10 b = log10 (a / b).
Proof.
  intros a b A B. unfold log10. assert (LD : ln (a / b) = ln a - ln b) by (unfold Rdiv; rewrite ln_mult, ln_Rinv by (try assumption; apply Rinv_0_lt_compat; assumption); ring). rewrite LD. assert (0 < ln 10) by (rewrite <- ln_1; apply ln_increasing; lra). field. lra.
Qed.

Lemma deltas : forall leastsq (raw : bool) u h z ob ds rhos temps k, good_units u -> 0 < h -> -1 < z -> 0 < ob -> 0 < k ->
  Forall2 (stored u h z) ds rhos -> Forall (fun rho => 0 < rho) rhos ->
  (forall d, d * density_conv (if raw then u else default_units) h z = k * (d * density_conv u h z)) ->
  let delta := map (fun rho => k * (rho / mean_baryons h z ob)) rhos in
  fit_td_rel leastsq raw u h z ob ds temps =
  (get_temp_meandensity (combine delta temps), fit_temp_dens_relation leastsq (combine (map log10 delta) (map log10 temps))).
Proof.
  intros leastsq raw u h z ob ds rhos temps k U H Z O KP ST POS KE delta. unfold fit_td_rel. cbv zeta.
  assert (MP := mean_pos h z ob H Z O). rewrite mean_is. set (m := mean_baryons h z ob) in *. fold protonmass. assert (P := proton_pos).
  assert (G : get_code_rhoH (if raw then u else default_units) h z ds = map (fun rho => k * (rho / protonmass)) rhos).
  { unfold get_code_rhoH. clear - ST KE U H Z. induction ST as [|d rho ds rhos S1 _ IH]; [reflexivity|]. cbn [map]. rewrite IH. f_equal.
    rewrite KE, (stored_conv u h h z d rho) by assumption. fold protonmass. replace (h / h) with 1 by (field; lra). ring. }
  rewrite G. clear G ST KE. unfold delta.
  assert (C : forall l : list R, Forall (fun rho => 0 < rho) l -> forall ts,
     map (fun p => (fst p / (m / protonmass), snd p)) (combine (map (fun rho => k * (rho / protonmass)) l) ts) =
       combine (map (fun rho => k * (rho / m)) l) ts /\
     map (fun p => (log10 (fst p) - log10 (m / protonmass), log10 (snd p))) (combine (map (fun rho => k * (rho / protonmass)) l) ts) =
       combine (map log10 (map (fun rho => k * (rho / m)) l)) (map log10 ts)).
  { clear - MP P KP. induction l as [|rho l IH]; intros POS ts; [split; reflexivity|]. destruct ts as [|t ts]; [split; reflexivity|].
    inversion POS as [|? ? P0 P1]; subst. destruct (IH P1 ts) as [I1 I2]. cbn [map combine fst snd]. rewrite I1, I2.
    assert (0 < rho / protonmass) by (apply Rdiv_lt_0_compat; assumption).
    assert (0 < m / protonmass) by (apply Rdiv_lt_0_compat; assumption).
    split; f_equal; f_equal.
    - field. split; lra.
    - rewrite log10_div by (try assumption; apply Rmult_lt_0_compat; assumption). f_equal. field. split; lra. }
  destruct (C rhos POS temps) as [C1 C2]. rewrite C1, C2. reflexivity.
Qed.

Lemma C83_overdensity_aux : forall leastsq u h z ob ds rhos temps, good_units u -> 0 < h -> -1 < z -> 0 < ob ->
  Forall2 (stored u h z) ds rhos -> Forall (fun rho => 0 < rho) rhos ->
  let delta := map (fun rho => rho / mean_baryons h z ob) rhos in
  fit_td_rel leastsq true u h z ob ds temps =
  (get_temp_meandensity (combine delta temps), fit_temp_dens_relation leastsq (combine (map log10 delta) (map log10 temps))).
Proof.
  intros leastsq u h z ob ds rhos temps U H Z O ST POS delta.
  rewrite (deltas leastsq true u h z ob ds rhos temps 1) by (auto; try lra; intros; ring).
  cbv zeta. unfold delta. assert (E : map (fun rho => 1 * (rho / mean_baryons h z ob)) rhos = map (fun rho => rho / mean_baryons h z ob) rhos)
    by (apply map_ext; intros; ring). rewrite E. reflexivity.
Qed.

Lemma C83_network_aux : forall leastsq u h z ob ds rhos temps, good_units u -> 0 < h -> -1 < z -> 0 < ob ->
  Forall2 (stored u h z) ds rhos -> Forall (fun rho => 0 < rho) rhos ->
  let k := (1.98892e43 / 3.085678e21 ^ 3) / (QuantModel.u_mass u / QuantModel.u_length u ^ 3) in
  let delta := map (fun rho => k * (rho / mean_baryons h z ob)) rhos in
  fit_td_rel leastsq false u h z ob ds temps =
  (get_temp_meandensity (combine delta temps), fit_temp_dens_relation leastsq (combine (map log10 delta) (map log10 temps))).
Proof.
  intros leastsq u h z ob ds rhos temps U H Z O ST POS k delta.
  assert (UD : good_units default_units) by (unfold good_units, default_units; cbn [QuantModel.u_length QuantModel.u_mass QuantModel.u_vel]; lra).
  assert (K : k = density_unit default_units / density_unit u) by reflexivity.
  assert (D1 := unit_pos _ UD). assert (D2 := unit_pos _ U). assert (P := proton_pos).
  apply (deltas leastsq false u h z ob ds rhos temps k); auto.
  - rewrite K. apply Rdiv_lt_0_compat; assumption.
  - intros d. rewrite K. unfold density_conv. set (a := density_unit default_units) in *. set (b := density_unit u) in *.
    set (p := protonmass) in *. clearbody a b p. field. split; lra.
Qed.

Lemma C83_mpc_aux : forall leastsq h z ob ds rhos temps, 0 < h -> -1 < z -> 0 < ob ->
  Forall2 (stored (mkUnits 3.085678e24 1.98892e43 1e5) h z) ds rhos ->
  Forall (fun rho => 1e-8 * mean_baryons h z ob <= rho) rhos ->
  fit_td_rel leastsq false (mkUnits 3.085678e24 1.98892e43 1e5) h z ob ds temps = (None, TypeErr).
Proof.
  intros leastsq h z ob ds rhos temps H Z O ST BIG.
  assert (U : good_units (mkUnits 3.085678e24 1.98892e43 1e5)) by (unfold good_units; cbn [QuantModel.u_length QuantModel.u_mass QuantModel.u_vel]; lra).
  assert (MP := mean_pos h z ob H Z O).
  assert (POS : Forall (fun rho => 0 < rho) rhos) by (eapply Forall_impl; [|exact BIG]; intros; cbv beta in *; nra).
  rewrite (C83_network_aux leastsq _ h z ob ds rhos temps U H Z O ST POS). cbv zeta. cbn [QuantModel.u_mass QuantModel.u_length].
  assert (KV : 1.98892e43 / 3.085678e21 ^ 3 / (1.98892e43 / 3.085678e24 ^ 3) = 1e9).
  { assert (L : 3.085678e24 = 1000 * 3.085678e21) by lra. rewrite L. assert (L0 : 0 < 3.085678e21) by lra. assert (M0 : 0 < 1.98892e43) by lra.
    set (l := 3.085678e21) in *. set (m := 1.98892e43) in *. clearbody l m. replace 1e9 with (1000 ^ 3) by lra. field. split; lra. }
  rewrite KV. set (m := mean_baryons h z ob) in *.
  assert (TEN : forall rho, 1e-8 * m <= rho -> 10 <= 1e9 * (rho / m)).
  { intros rho B. apply Rmult_le_reg_r with m; [exact MP|]. replace (1e9 * (rho / m) * m) with (1e9 * rho) by (field; lra). nra. }
  assert (LN : 0 < ln 10) by (rewrite <- ln_1; apply ln_increasing; lra).
  assert (LOG : forall x, 10 <= x -> 1 <= log10 x).
  { intros x X. unfold log10. apply Rmult_le_reg_r with (ln 10); [exact LN|]. replace (ln x / ln 10 * ln 10) with (ln x) by (field; lra).
    rewrite Rmult_1_l. destruct X as [X| <-]; [left; apply ln_increasing; lra|lra]. }
  assert (F : forall l, Forall (fun rho => 1e-8 * m <= rho) l -> forall ts,
    filter (fun p => ltb 0.95 (fst p) && ltb (fst p) 1.05) (combine (map (fun rho => 1e9 * (rho / m)) l) ts) = [] /\
    filter selected (combine (map log10 (map (fun rho => 1e9 * (rho / m)) l)) (map log10 ts)) = []).
  { induction l as [|rho l IH]; intros B ts; [split; reflexivity|]. destruct ts as [|t ts]; [split; reflexivity|].
    inversion B as [|? ? B0 B1]; subst. destruct (IH B1 ts) as [I1 I2]. cbn [map combine filter fst snd]. rewrite I1, I2.
    assert (T := TEN rho B0). assert (L1 := LOG _ T). set (x := 1e9 * (rho / m)) in *. clearbody x. split.
    - unfold ltb at 2. destruct (Rlt_dec x 1.05); [lra|]. rewrite andb_false_r. reflexivity.
    - unfold selected. cbn [fst snd]. unfold ltb at 2. destruct (Rlt_dec (log10 x) 1); [lra|]. rewrite andb_false_r. reflexivity. }
  destruct (F rhos BIG temps) as [F1 F2]. unfold get_temp_meandensity, fit_temp_dens_relation. rewrite F1, F2. reflexivity.
Qed.

Lemma C83_powerlaw_aux : forall leastsq u h z ob ds rhos T0 gamma rho rho', minimises leastsq ->
  good_units u -> 0 < h -> -1 < z -> 0 < ob -> 0 < T0 ->
  Forall2 (stored u h z) ds rhos -> Forall (fun rho => 0 < rho) rhos ->
  let delta := fun rho => rho / mean_baryons h z ob in
  let temp := fun rho => T0 * Rpower (delta rho) (gamma - 1) in
  In rho rhos -> In rho' rhos -> rho <> rho' ->
  1 < delta rho < 10 -> 1 < delta rho' < 10 -> Rpower 10 0.1 < temp rho < 1e5 -> Rpower 10 0.1 < temp rho' < 1e5 ->
  snd (fit_td_rel leastsq true u h z ob ds (map temp rhos)) = Fit T0 gamma.
Proof.
  intros leastsq u h z ob ds rhos T0 gamma rho rho' MIN U H Z O T0P ST POS delta temp I I' NE D D' T T'.
  rewrite (C83_overdensity_aux leastsq u h z ob ds rhos (map temp rhos) U H Z O ST POS). cbn [snd].
  fold delta. assert (MP := mean_pos h z ob H Z O).
  assert (CE : combine (map log10 (map delta rhos)) (map log10 (map temp rhos)) = map (fun r => (log10 (delta r), log10 (temp r))) rhos).
  { clear. induction rhos as [|r l IH]; [reflexivity|]. cbn [map combine]. rewrite IH. reflexivity. }
  rewrite CE. assert (LN : 0 < ln 10) by (rewrite <- ln_1; apply ln_increasing; lra).
  assert (LT : forall x y, 0 < x -> x < y -> log10 x < log10 y).
  { intros x y X XY. unfold log10, Rdiv. apply Rmult_lt_compat_r; [apply Rinv_0_lt_compat, LN|apply ln_increasing; assumption]. }
  assert (L1 : log10 1 = 0) by (unfold log10; rewrite ln_1; field; lra).
  assert (L10 : log10 10 = 1) by (unfold log10; field; lra).
  assert (L5 : log10 1e5 = 5).
  { unfold log10. replace 1e5 with (10 ^ 5) by lra. rewrite <- (Rpower_pow 5 10) by lra. unfold Rpower. rewrite ln_exp. replace (INR 5) with 5 by (simpl; lra). field. lra. }
  assert (LP : log10 (Rpower 10 0.1) = 0.1) by (unfold log10, Rpower; rewrite ln_exp; field; lra).
  assert (RNG : forall r, 1 < delta r < 10 -> Rpower 10 0.1 < temp r < 1e5 -> in_range (log10 (delta r), log10 (temp r))).
  { intros r A B. unfold in_range. cbn [fst snd]. assert (0 < Rpower 10 0.1) by (unfold Rpower; apply exp_pos).
    rewrite <- L1, <- L10, <- LP, <- L5. repeat split; apply LT; lra. }
  apply (C83_exact_aux leastsq _ (log10 (delta rho), log10 (temp rho)) (log10 (delta rho'), log10 (temp rho')) T0 gamma MIN T0P).
  - intros r IN _. apply in_map_iff in IN. destruct IN as [r0 [<- IN]]. cbn [fst snd]. unfold temp.
    rewrite Forall_forall in POS. assert (P0 := POS r0 IN). assert (0 < delta r0) by (apply Rdiv_lt_0_compat; assumption).
    unfold log10. rewrite ln_mult by (try assumption; unfold Rpower; apply exp_pos). unfold Rpower. rewrite ln_exp. field. lra.
  - apply in_map_iff. exists rho. auto.
  - apply in_map_iff. exists rho'. auto.
  - apply RNG; assumption.
  - apply RNG; assumption.
  - cbn [fst]. intros E. apply NE.
    assert (DD : delta rho = delta rho').
    { destruct (Rtotal_order (delta rho) (delta rho')) as [Q|[Q|Q]]; [|exact Q|]; apply LT in Q; lra. }
    unfold delta in DD. apply (Rmult_eq_reg_r (/ mean_baryons h z ob)); [exact DD|]. apply Rinv_neq_0_compat. lra.
Qed.
