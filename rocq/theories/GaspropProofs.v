(** Proofs about the gas object (C82). *)
From Coq Require Import Ascii String List Bool Reals Lra Lia.
From Verif Require Import QuantModel NeutralModel GaspropModel GaspropSpec.
Import ListNotations.
Local Open Scope R_scope.

Lemma proton_pos : 0 < protonmass.
Proof. unfold protonmass. lra. Qed.

Lemma unit_pos : forall u, good_units u -> 0 < density_unit u.
Proof. intros u [L [M _]]. unfold density_unit. apply Rdiv_lt_0_compat; [exact M|apply pow_lt, L]. Qed.

Lemma conv_pos : forall u h z, good_units u -> 0 < h -> -1 < z -> 0 < density_conv u h z.
Proof.
  intros u h z U H Z. unfold density_conv. assert (D := unit_pos u U). assert (P := proton_pos).
  assert (0 < h ^ 2) by (apply pow_lt, H). assert (0 < (1 + z) ^ 3) by (apply pow_lt; lra).
  apply Rmult_lt_0_compat; [|assumption]. apply Rdiv_lt_0_compat; [|assumption]. apply Rmult_lt_0_compat; assumption.
Qed.

Lemma stored_conv : forall u h h' z d rho, good_units u -> 0 < h -> -1 < z -> stored u h z d rho ->
  d * density_conv u h' z = rho / 1.67262178e-24 * (h' / h) ^ 2.
Proof.
  intros u h h' z d rho [L [M V]] H Z ST. unfold stored in ST. unfold density_conv, density_unit. fold protonmass. assert (P := proton_pos).
  set (p := protonmass) in *. clearbody p. destruct u as [l m v]. cbn [u_length u_mass u_vel] in *.
  assert (E : d = rho * (l / h / (1 + z)) ^ 3 / (m / h)).
  { rewrite ST. field. split; lra. }
  rewrite E. field. repeat split; lra.
Qed.

Lemma C82_density_aux : forall u h z ds rhos, good_units u -> 0 < h -> -1 < z -> Forall2 (stored u h z) ds rhos ->
  get_code_rhoH u h z ds = map (fun rho => rho / 1.67262178e-24) rhos.
Proof.
  intros u h z ds rhos U H Z F. induction F as [|d rho ds rhos ST F IH]; [reflexivity|].
  unfold get_code_rhoH in *. cbn [map]. rewrite IH. f_equal. rewrite (stored_conv u h h z d rho) by assumption.
  replace (h / h) with 1 by (field; lra). rewrite pow1. ring.
Qed.

Lemma C82_init_aux : forall red h u sf,
  init false (gprop_args red h u sf None) = Some (mkGasprop red h 0.17 u sf) /\
  (forall pf ss tf gf h' fb tc, init true (gprop_args red h u sf (ratenetwork_args pf ss tf gf h' fb tc)) = Some (mkGasprop red h' fb u sf)).
Proof. intros red h u sf. split; [reflexivity|]. intros. reflexivity. Qed.

Lemma C82_ratenetwork_aux : forall pf ss tf gf fb tc red h u sf ds rhos, good_units u -> 0 < h -> -1 < red ->
  Forall2 (stored u h red) ds rhos ->
  exists g, init true (gprop_args red h u sf (ratenetwork_args pf ss tf gf 0.71 fb tc)) = Some g /\
    get_code_rhoH (g_units g) (g_hubble g) (g_red g) ds = map (fun rho => (0.71 / h) ^ 2 * (rho / 1.67262178e-24)) rhos.
Proof.
  intros pf ss tf gf fb tc red h u sf ds rhos U H Z F. eexists. split; [reflexivity|]. cbn [g_units g_hubble g_red].
  change (unit_arg _) with u. change (num _ "hubble" _) with 0.71. change (num _ "redshift" _) with red.
  induction F as [|d rho ds rhos ST F IH]; [reflexivity|].
  unfold get_code_rhoH in *. cbn [map]. rewrite IH. f_equal. rewrite (stored_conv u h 0.71 red d rho) by assumption. ring.
Qed.

(** The threshold in code units at redshift zero. *)
Definition code_thresh : R :=
  let i := 1 / (4 / (8 - 5 * (1 - 0.76))) in
  let c := 1 / (4 / (1 + 3 * 0.76)) in
  let uh := i * (5.73e7 / 573) in
  let x := (uh - i * 1e4) / (uh - c * 1000) in
  x / (1 - x) ^ 2 * (0.264089 * (i * 5.73e7) - (1 - 0.264089) * (c * 1000)) / uh * (4.64419e-10 / 2.27) * 277.476.

Lemma code_thresh_value : 8.4e-4 < code_thresh < 8.6e-4.
Proof.
  unfold code_thresh. cbv zeta.
  replace (1 / (4 / (8 - 5 * (1 - 0.76)))) with 1.7 by lra.
  replace (1 / (4 / (1 + 3 * 0.76))) with 0.82 by lra.
  replace ((1.7 * (5.73e7 / 573) - 1.7 * 1e4) / (1.7 * (5.73e7 / 573) - 0.82 * 1000)) with (153000 / 169180) by lra.
  replace (153000 / 169180 / (1 - 153000 / 169180) ^ 2) with (153000 * 169180 / (16180 ^ 2)) by lra.
  split; lra.
Qed.

Lemma thresh_code : forall u h, good_units u -> 0 < h ->
  get_rho_thresh u h = code_thresh * (density_unit u * h ^ 2 / protonmass) * 0.76.
Proof.
  intros u h U H. assert (DU := unit_pos u U). destruct U as [L [M V]]. assert (P := proton_pos).
  unfold get_rho_thresh, code_thresh. cbv zeta.
  set (rho := density_unit u) in *. set (t := u_length u / u_vel u).
  assert (T : 0 < t) by (apply Rdiv_lt_0_compat; assumption).
  replace (1 / (4 / (8 - 5 * (1 - 0.76)))) with 1.7 by lra.
  replace (1 / (4 / (1 + 3 * 0.76))) with 0.82 by lra.
  replace (1 / (5 / 3 - 1)) with 1.5 by lra.
  set (k := 1.38066e-16 / protonmass) in *. assert (K : 0 < k) by (apply Rdiv_lt_0_compat; [lra|assumption]).
  set (p := protonmass) in *. clearbody k p t rho. 
  replace ((1.7 * (5.73e7 / 573) - 1.7 * 1e4) / (1.7 * (5.73e7 / 573) - 0.82 * 1000)) with (153000 / 169180) by lra.
  replace ((1.7 * 1.5 * k * 5.73e7 / 573 - 1.7 * 1.5 * k * 1e4) / (1.7 * 1.5 * k * 5.73e7 / 573 - 0.82 * 1.5 * k * 1000)) with (153000 / 169180).
  2:{ replace (1.7 * 1.5 * k * 5.73e7 / 573 - 1.7 * 1.5 * k * 1e4) with (153000 * (1.5 * k)) by lra.
      replace (1.7 * 1.5 * k * 5.73e7 / 573 - 0.82 * 1.5 * k * 1000) with (169180 * (1.5 * k)) by lra. field. lra. }
  set (q := 153000 / 169180 / (1 - 153000 / 169180) ^ 2). clearbody q.
  replace (0.264089 * (1.7 * 1.5 * k * 5.73e7) - (1 - 0.264089) * (0.82 * 1.5 * k * 1000))
    with ((0.264089 * (1.7 * 5.73e7) - (1 - 0.264089) * (0.82 * 1000)) * (1.5 * k)) by lra.
  set (n := 0.264089 * (1.7 * 5.73e7) - (1 - 0.264089) * (0.82 * 1000)). clearbody n.
  replace (1.7 * 1.5 * k * 5.73e7 / 573) with (170000 * (1.5 * k)) by lra.
  replace (1.7 * (5.73e7 / 573)) with 170000 by lra.
  assert (E : forall a b c e r : R, 0 < a -> 0 < b -> 0 < c -> 0 < e -> 0 < r ->
     q * (n * (1.5 * k)) / (a * t / h * (r * (1.5 * k) / (b * t / h) / (c * rho * h ^ 2))) / p * e =
     q * n / r * (b / a) * c * (rho * h ^ 2 / p) * e).
  { intros a b c e r A B C E0 R0. field. repeat split; lra. }
  apply E; lra.
Qed.

Lemma C82_threshold_aux : exists K, 8.4e-4 < K < 8.6e-4 /\
  forall g s densities codes i d c, good_units (g_units g) -> 0 < g_hubble g -> gas_of g = Some s -> g_sf g = true ->
    length densities = length codes -> nth_error densities i = Some d -> nth_error codes i = Some c ->
    exists f, nth_error (get_reproc_HI s densities codes) i = Some f /\
      (d * (1 + g_red g) ^ 3 <= K -> f = c) /\
      (K < d * (1 + g_red g) ^ 3 -> forall n, nth_error (get_code_rhoH (g_units g) (g_hubble g) (g_red g) densities) i = Some n ->
         (8 < g_red g -> f = 1) /\
         (g_red g <= 8 -> exists b, uvb_of (g_red g) (g_fbar g) = Some (Some b) /\ f = neutral_fraction b n 1e4)).
Proof.
  exists code_thresh. split; [exact code_thresh_value|]. intros g s ds cs i d c U H G SF L D C.
  unfold gas_of in G. destruct (uvb_of (g_red g) (g_fbar g)) as [b|] eqn:UV; [|discriminate]. injection G as <-.
  assert (Z : 0 <= g_red g).
  { destruct (Rle_dec 0 (g_red g)); [assumption|]. unfold uvb_of in UV. destruct (Rlt_dec 8 (g_red g)); [lra|].
    assert (N : interp1d gamma_table (g_red g) = None). { unfold gamma_table. cbn [interp1d]. destruct (Rlt_dec (g_red g) 0); [reflexivity|lra]. }
    rewrite N in UV. destruct (interp1d gray_table (g_red g)); discriminate. }
  assert (B8 : (8 < g_red g -> b = None) /\ (g_red g <= 8 -> exists b', b = Some b')).
  { unfold uvb_of in UV. destruct (Rlt_dec 8 (g_red g)); [split; [congruence|lra]|]. split; [lra|]. intros _.
    destruct (interp1d gamma_table (g_red g)), (interp1d gray_table (g_red g)); try discriminate. injection UV as <-. eauto. }
  unfold get_reproc_HI. cbn [sf_neutral]. rewrite SF.
  assert (NE : nth_error (combine ds cs) i = Some (d, c)).
  { clear - D C. revert cs i D C. induction ds as [|x ds IH]; intros [|y cs] [|i] D C; try discriminate; cbn in *; [congruence|auto]. }
  erewrite map_nth_error; [|exact NE]. eexists. split; [reflexivity|]. cbn [fst snd]. unfold reproc1. cbn [thresh conv bg].
  assert (CP := conv_pos (g_units g) (g_hubble g) (g_red g) U H ltac:(lra)).
  assert (Z3 : 0 < (1 + g_red g) ^ 3) by (apply pow_lt; lra).
  assert (DU := unit_pos _ U). assert (P := proton_pos).
  assert (E : get_rho_thresh (g_units g) (g_hubble g) / 0.76 / density_conv (g_units g) (g_hubble g) (g_red g) = code_thresh / (1 + g_red g) ^ 3).
  { rewrite thresh_code by assumption. unfold density_conv. set (r := density_unit (g_units g)) in *. set (p := protonmass) in *.
    set (hh := g_hubble g) in *. set (z3 := (1 + g_red g) ^ 3) in *. set (K := code_thresh) in *. clearbody r p hh z3 K. field. repeat split; lra. }
  rewrite E. assert (IFF : code_thresh / (1 + g_red g) ^ 3 < d <-> code_thresh < d * (1 + g_red g) ^ 3).
  { set (z3 := (1 + g_red g) ^ 3) in *. clearbody z3. split; intros Q.
    - apply Rmult_lt_reg_r with (/ z3); [apply Rinv_0_lt_compat; lra|]. replace (d * z3 * / z3) with d by (field; lra). exact Q.
    - apply Rmult_lt_reg_r with z3; [lra|]. replace (code_thresh / z3 * z3) with code_thresh by (field; lra). exact Q. }
  destruct (Rlt_dec (code_thresh / (1 + g_red g) ^ 3) d) as [Q|Q].
  - apply IFF in Q. split; [lra|]. intros _ n N. unfold get_code_rhoH in N. erewrite map_nth_error in N; [|exact D]. injection N as <-.
    destruct B8 as [B1 B2]. split.
    + intros Z8. rewrite (B1 Z8). reflexivity.
    + intros Z8. destruct (B2 Z8) as [b' ->]. exists b'. split; reflexivity.
  - split; [reflexivity|]. intros Q'. apply IFF in Q'. contradiction.
Qed.

Lemma stored_exists : forall u h z rho, good_units u -> 0 < h -> -1 < z ->
  stored u h z (rho * u_length u ^ 3 / u_mass u / h ^ 2 / (1 + z) ^ 3) rho.
Proof. intros u h z rho [L [M V]] H Z. unfold stored. field. repeat split; lra. Qed.

Lemma C82_units_aux : forall h z rho, 0 < h -> 0 <= z -> 0 < rho ->
  exists u u' d d', good_units u /\ good_units u' /\ stored u h z d rho /\ stored u' h z d' rho /\
    forall fbar s s', gas_of (mkGasprop z h fbar u true) = Some s -> gas_of (mkGasprop z h fbar u' true) = Some s' ->
      forall c, get_reproc_HI s [d] [c] = [c] /\
        (8 < z -> get_reproc_HI s' [d'] [c] = [1]) /\
        (z <= 8 -> exists b, uvb_of z fbar = Some (Some b) /\ get_reproc_HI s' [d'] [c] = [neutral_fraction b (rho / 1.67262178e-24) 1e4]).
Proof.
  intros h z rho H Z RH. destruct C82_threshold_aux as [K [KB T]].
  set (a := rho / h ^ 2). assert (A : 0 < a) by (apply Rdiv_lt_0_compat; [lra|apply pow_lt, H]).
  (* d (1+z)^3 = rho L^3 / M / h^2 *)
  set (mk := fun k => mkUnits 1 (a / k) 1).
  assert (GU : forall k, 0 < k -> good_units (mk k)).
  { intros k Kp. unfold good_units, mk. cbn. repeat split; try lra. apply Rdiv_lt_0_compat; lra. }
  assert (SZ : forall k, 0 < k -> stored (mk k) h z (k / (1 + z) ^ 3) rho).
  { intros k Kp. unfold stored, mk. cbn [u_length u_mass]. unfold a. field. repeat split; lra. }
  assert (VAL : forall k, k / (1 + z) ^ 3 * (1 + z) ^ 3 = k) by (intros k; field; lra).
  exists (mk (K / 2)), (mk (2 * K)), (K / 2 / (1 + z) ^ 3), (2 * K / (1 + z) ^ 3).
  split; [apply GU; lra|]. split; [apply GU; lra|]. split; [apply SZ; lra|]. split; [apply SZ; lra|].
  intros fbar s s' G G' c.
  destruct (T (mkGasprop z h fbar (mk (K / 2)) true) s [K / 2 / (1 + z) ^ 3] [c] 0%nat (K / 2 / (1 + z) ^ 3) c (GU (K / 2) ltac:(lra)) H G eq_refl eq_refl eq_refl eq_refl) as [f [F1 [F2 _]]].
  destruct (T (mkGasprop z h fbar (mk (2 * K)) true) s' [2 * K / (1 + z) ^ 3] [c] 0%nat (2 * K / (1 + z) ^ 3) c (GU (2 * K) ltac:(lra)) H G' eq_refl eq_refl eq_refl eq_refl) as [f' [F1' [_ F2']]].
  cbn [g_red g_units g_hubble g_fbar] in *. rewrite VAL in F2, F2'. specialize (F2 ltac:(lra)). specialize (F2' ltac:(lra)).
  assert (ONE : forall s0 d0 x, nth_error (get_reproc_HI s0 [d0] [c]) 0 = Some x -> get_reproc_HI s0 [d0] [c] = [x]).
  { intros s0 d0 x. unfold get_reproc_HI. destruct (sf_neutral s0); cbn; congruence. }
  apply ONE in F1. apply ONE in F1'. rewrite F1, F1'. split; [rewrite F2; reflexivity|].
  assert (RHO := C82_density_aux (mk (2 * K)) h z [2 * K / (1 + z) ^ 3] [rho] (GU (2 * K) ltac:(lra)) H ltac:(lra)
                   (Forall2_cons _ _ (SZ (2 * K) ltac:(lra)) (Forall2_nil _))).
  cbn [map] in RHO. rewrite RHO in F2'.
  specialize (F2' (rho / 1.67262178e-24) eq_refl). destruct F2' as [P1 P2]. split.
  - intros Z8. rewrite (P1 Z8). reflexivity.
  - intros Z8. destruct (P2 Z8) as [b [B1 ->]]. exists b. split; [exact B1|reflexivity].
Qed.

Lemma C82_mpc_aux : forall h z fbar s d c, 0 < h -> 0 <= z -> 1e-3 <= d ->
  gas_of (mkGasprop z h fbar (mkUnits 3.085678e24 1.98892e43 1e5) true) = Some s ->
  (8 < z -> get_reproc_HI s [d] [c] = [1]) /\
  (z <= 8 -> exists b, uvb_of z fbar = Some (Some b) /\
     get_reproc_HI s [d] [c] = [neutral_fraction b (d * density_conv (mkUnits 3.085678e24 1.98892e43 1e5) h z) 1e4]).
Proof.
  intros h z fbar s d c H Z D G. destruct C82_threshold_aux as [K [KB T]].
  assert (U : good_units (mkUnits 3.085678e24 1.98892e43 1e5)) by (unfold good_units; cbn [u_length u_mass u_vel]; lra).
  set (mpc := mkUnits 3.085678e24 1.98892e43 1e5) in *. clearbody mpc.
  destruct (T (mkGasprop z h fbar mpc true) s [d] [c] 0%nat d c U H G eq_refl eq_refl eq_refl eq_refl) as [f [F1 [_ F2]]].
  cbn [g_red g_units g_hubble g_fbar] in *.
  assert (1 <= (1 + z) ^ 3) by (apply pow_R1_Rle; lra).
  assert (K < d * (1 + z) ^ 3) by nra. specialize (F2 H1 _ eq_refl). destruct F2 as [P1 P2].
  assert (ONE : get_reproc_HI s [d] [c] = [f]).
  { revert F1. unfold get_reproc_HI. destruct (sf_neutral s); cbn; congruence. }
  rewrite ONE. split; [intros Z8; rewrite (P1 Z8); reflexivity|]. intros Z8. destruct (P2 Z8) as [b [B1 ->]]. exists b. auto.
Qed.
