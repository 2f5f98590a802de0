(** Proofs about the constants of a line and the switch turn_off_selfshield. *)
From Coq Require Import ZArith List Bool Reals Lra Lia.
From Flocq Require Import Core.Raux.
From Verif Require Import IndexModel AbsorptionModel AbsorptionSpec KernelProofs AbsorptionProofs TauProofs PipelineModel NeutralModel
  NeutralSpec NeutralProofs DampModel DampSpec.
Import ListNotations.
Local Open Scope R_scope.

Lemma fold_opt_ext : forall (A B : Type) (f g : A -> B -> option B) l acc, (forall a b, f a b = g a b) ->
  fold_left (fun acc t => match acc with None => None | Some a => f t a end) l acc =
  fold_left (fun acc t => match acc with None => None | Some a => g t a end) l acc.
Proof.
  intros A B f g l. induction l as [|x t IH]; intros acc H; [reflexivity|]. simpl. rewrite <- IH by assumption.
  destruct acc; [rewrite H|]; reflexivity.
Qed.

(** Two settings that treat every particle alike give the same arrays. *)
Lemma interpolate_ext : forall qu su su' ls gs op ol, su_kern su = su_kern su' -> su_unit su = su_unit su' -> su_box su = su_box su' ->
  su_nbins su = su_nbins su' -> velfac (su_line su) = velfac (su_line su') -> vbox (su_line su) = vbox (su_line su') ->
  (forall axis t arr, add_one qu su gs axis t arr = add_one qu su' gs axis t arr) ->
  interpolate qu su ls gs op ol = interpolate qu su' ls gs op ol.
Proof.
  intros qu su su' ls gs op ol Ek Eu Eb En Ev Ex H. unfold interpolate. rewrite Eb, En.
  destruct (get_near_particles _ _ _ _) as [lists|]; [|reflexivity]. unfold loop_lines.
  assert (R1 : forall l near arr, run_line qu su gs l near arr = run_line qu su' gs l near arr).
  { intros l near arr. unfold run_line. 
    assert (T : line_targets su gs l near = line_targets su' gs l near).
    { unfold line_targets, cell_of. rewrite Ek, Eu, Eb. reflexivity. }
    rewrite T. destruct (line_targets su' gs l near) as [ts|]; [|reflexivity].
    apply (fold_opt_ext _ _ (fun t a => add_one qu su gs (l_axis l) t a) (fun t a => add_one qu su' gs (l_axis l) t a)).
    intros; apply H. }
  generalize (Some (repeat 0 (length ls * su_nbins su'))). induction ol as [|i t IH]; intros acc; [reflexivity|].
  simpl. rewrite <- IH. f_equal. destruct acc as [a|]; [|reflexivity].
  destruct (nth_error ls i) as [l|]; [|reflexivity]. destruct (nth_error lists i) as [near|]; [|reflexivity].
  unfold at_offset, line_offset. rewrite En, R1. reflexivity.
Qed.

Lemma C129_density_aux : forall s s' gs m m' l l' off P t, s' = switched off (with_profile P t s) ->
  do_interpolation_work s' gs m' l' false = do_interpolation_work s gs m l false.
Proof.
  intros s s' gs m m' l l' off P t ->. unfold do_interpolation_work. cbn [switched with_profile s_off s_kern s_unit s_box s_nbins
    s_velfac s_tautail s_profile s_sight s_parts s_lines].
  apply interpolate_ext; try reflexivity.
Qed.

Lemma inner_profile : forall P Q k b d h a v, (forall u, P u a = Q u a) -> tau_kern_inner P k b d h a v = tau_kern_inner Q k b d h a v.
Proof.
  intros P Q k b d h a v H. rewrite !inner_sum. f_equal. apply rsum_map_ext. intros i _. cbv zeta. rewrite H. reflexivity.
Qed.

Lemma fold_plus_ext : forall (A : Type) (f g : A -> R) l a, (forall x, f x = g x) ->
  fold_left (fun t x => t + f x) l a = fold_left (fun t x => t + g x) l a.
Proof. intros A f g l. induction l as [|x t IH]; intros a H; [reflexivity|]. simpl. rewrite H. apply IH. assumption. Qed.

Lemma outer_profile : forall P Q k b d h a lo hi, (forall u, P u a = Q u a) ->
  tau_kern_outer P k b d h a lo hi = tau_kern_outer Q k b d h a lo hi.
Proof.
  intros P Q k b d h a lo hi H. unfold tau_kern_outer. pose proof (fun v => inner_profile P Q k b d h a v H) as I.
  destruct (Rlt_dec (hi - lo) (b / 2)); [apply I|]. rewrite !I. f_equal. f_equal. apply fold_plus_ext. intros; apply I.
Qed.

Lemma tau_loop_ext : forall n t f g zs arr, (forall z, f z = g z) -> tau_loop n t f zs arr = tau_loop n t g zs arr.
Proof.
  intros n t f g zs. induction zs as [|z zs IH]; intros arr H; [reflexivity|]. simpl. rewrite H.
  destruct (add_at _ _ _); [|reflexivity]. destruct (Rlt_dec (g z) t); [reflexivity|]. apply IH. assumption.
Qed.

Lemma add_tau_profile : forall P Q L k n dr2 dens pos vel temp h arr, voigt_fac L = 0 -> (forall u, P u 0 = Q u 0) ->
  add_tau_particle P L k n dr2 dens pos vel temp h arr = add_tau_particle Q L k n dr2 dens pos vel temp h arr.
Proof.
  intros P Q L k n dr2 dens pos vel temp h arr E H. unfold add_tau_particle. rewrite E.
  replace (0 / (bfac L * sqrt temp)) with 0 by (unfold Rdiv; ring).
  match goal with |- (if ?c then _ else _) = _ => destruct c; [reflexivity|] end. cbv zeta.
  match goal with |- match tau_loop _ _ ?f _ _ with _ => _ end = match tau_loop _ _ ?g _ _ with _ => _ end =>
    assert (V : forall z, f z = g z) by (intros z; cbv beta; rewrite (outer_profile P Q) by assumption; reflexivity);
    rewrite (tau_loop_ext _ _ f g) by exact V; destruct (tau_loop _ _ g _ _); [apply tau_loop_ext; exact V|reflexivity] end.
Qed.

Lemma C129_damping_aux : forall s gs m l,
  do_interpolation_work (switched true s) gs m l true = do_interpolation_work (switched false s) gs m (undamped l) true /\
  (forall Q, (forall u, s_profile s u 0 = Q u 0) ->
     do_interpolation_work (with_profile Q (s_tautail s) (switched true s)) gs m l true
     = do_interpolation_work (switched true s) gs m l true) /\
  (s_off s = false -> gamma_X l = 0 -> do_interpolation_work (switched true s) gs m l true = do_interpolation_work s gs m l true).
Proof.
  intros s gs m l. split; [reflexivity|]. split.
  - intros Q H. unfold do_interpolation_work. cbn [switched with_profile s_off s_kern s_unit s_box s_nbins
      s_velfac s_tautail s_profile s_sight s_parts s_lines]. apply interpolate_ext; try reflexivity.
    intros axis (i & d & h) arr. unfold add_one. cbn [su_line su_nbins su_profile su_kern su_unit].
    destruct (at_part gs i); [|reflexivity]. destruct (flat g_pos gs _); [|reflexivity]. destruct (flat g_vel gs _); [|reflexivity].
    apply add_tau_profile; [unfold line_absorption; cbn [voigt_fac]; unfold Rdiv; ring|]. intros u. symmetry. apply H.
  - intros Ho Hg. unfold do_interpolation_work. rewrite Ho, Hg. reflexivity.
Qed.

(** The wings of a profile. *)
Lemma fold_plus_le : forall (A : Type) (f g : A -> R) l a a', a <= a' -> (forall x, In x l -> f x <= g x) ->
  fold_left (fun t x => t + f x) l a <= fold_left (fun t x => t + g x) l a'.
Proof.
  intros A f g l. induction l as [|x t IH]; intros a a' Ha H; [assumption|]. simpl. apply IH.
  - pose proof (H x (or_introl eq_refl)). lra.
  - intros y Hy. apply H. right. assumption.
Qed.

Lemma inner_le : forall P k b d h a v U, 0 < b -> 0 < h -> (k = Voronoi -> d <= h) ->
  (forall u, U <= Rabs u -> P u 0 <= P u a) -> U * b + m_vhigh k d h <= Rabs v ->
  tau_kern_inner P k b d h 0 v <= tau_kern_inner P k b d h a v.
Proof.
  intros P k b d h a v U Hb Hh Hk HP Hv. unfold tau_kern_inner. pose proof (vhigh_nonneg k d h Hk) as V.
  apply Rmult_le_compat_l; [lra|]. apply fold_plus_le; [lra|]. intros i Hi. apply in_seq in Hi.
  apply Rmult_le_compat_r; [apply weight_nonneg; apply Rmult_le_pos; [apply sqrt_pos|left; apply Rinv_0_lt_compat; assumption]|].
  apply HP. unfold Rdiv at 1. rewrite Rabs_mult, (Rabs_right (/ b)) by (apply Rle_ge; left; apply Rinv_0_lt_compat; assumption).
  apply Rmult_le_reg_r with b; [assumption|]. rewrite Rmult_assoc, Rinv_l, Rmult_1_r by lra.
  assert (B1 : 0 <= INR i) by apply pos_INR.
  assert (B2 : INR i <= 8) by (replace 8 with (INR 8) by (simpl; lra); apply le_INR; lia).
  set (w := INR i * (2 * m_vhigh k d h / 8) - m_vhigh k d h).
  assert (W : - m_vhigh k d h <= w <= m_vhigh k d h) by (unfold w; split; nra).
  unfold Rabs in *. destruct (Rcase_abs v), (Rcase_abs (w - v)); lra.
Qed.

Lemma outer_le : forall P k b d h a lo hi U, 0 < b -> 0 < h -> 0 <= U -> lo < hi -> (k = Voronoi -> d <= h) ->
  (forall u, U <= Rabs u -> P u 0 <= P u a) -> apart lo hi (m_vhigh k d h) (U * b) ->
  tau_kern_outer P k b d h 0 lo hi <= tau_kern_outer P k b d h a lo hi.
Proof.
  intros P k b d h a lo hi U Hb Hh HU Hl Hk HP HA. pose proof (vhigh_nonneg k d h Hk) as V.
  assert (UB : 0 <= U * b) by (apply Rmult_le_pos; lra).
  assert (I : forall v, lo <= v <= hi -> tau_kern_inner P k b d h 0 v <= tau_kern_inner P k b d h a v).
  { intros v Hv. apply inner_le with U; try assumption. destruct HA as [HA|HA].
    - rewrite Rabs_right; lra.
    - rewrite Rabs_left1; lra. }
  unfold tau_kern_outer. destruct (Rlt_dec (hi - lo) (b / 2)) as [G|G]; [apply I; lra|].
  set (c := Zceil ((hi - lo) / (b / 2) / 2)).
  assert (C : (1 <= c)%Z).
  { unfold c. apply Z.lt_pred_le. apply lt_IZR. simpl. apply Rlt_le_trans with ((hi - lo) / (b / 2) / 2); [|apply Zceil_ub].
    apply Rmult_lt_0_compat; [|lra]. apply Rmult_lt_0_compat; [lra|apply Rinv_0_lt_compat; lra]. }
  set (np := (2 * c + 1)%Z). assert (N : 2 <= IZR np - 1).
  { unfold np. rewrite plus_IZR, mult_IZR. apply IZR_le in C. lra. }
  cbv zeta. apply Rmult_le_compat_r; [left; apply Rinv_0_lt_compat; lra|].
  apply Rplus_le_compat; [|apply Rmult_le_compat_r; [lra|apply I; lra]].
  apply fold_plus_le; [apply Rmult_le_compat_r; [lra|apply I; lra]|].
  intros i Hi. apply in_seq in Hi. apply I.
  assert (B : 0 <= INR i <= IZR np - 1).
  { split; [apply pos_INR|]. rewrite INR_IZR_INZ, <- minus_IZR. apply IZR_le. lia. }
  assert (D : 0 < (hi - lo) / (IZR np - 1)) by (apply Rmult_lt_0_compat; [lra|apply Rinv_0_lt_compat; lra]).
  assert (E : (IZR np - 1) * ((hi - lo) / (IZR np - 1)) = hi - lo) by (field; lra).
  split; nra.
Qed.

Lemma edge_of : forall k L dr2 h, 0 < velfac L -> 0 < h -> (k = Voronoi -> dr2 <= h) -> (k <> Voronoi -> dr2 < h * h) ->
  m_vhigh k (match k with Voronoi => velfac L * dr2 | _ => velfac L * dr2 * velfac L end) (velfac L * h)
  <= velfac L * half_extent k dr2 h.
Proof.
  intros k L dr2 h Hv Hh Hk Hd.
  assert (S0 : dr2 < h * h -> sqrt (velfac L * h * (velfac L * h) - velfac L * dr2 * velfac L) = velfac L * sqrt (h * h - dr2)).
  { intros H. replace (velfac L * h * (velfac L * h) - velfac L * dr2 * velfac L) with (velfac L * velfac L * (h * h - dr2)) by ring.
    rewrite sqrt_mult by nra. rewrite sqrt_square by lra. reflexivity. }
  assert (S1 : 0 <= velfac L * sqrt (h * h - dr2)) by (apply Rmult_le_pos; [lra|apply sqrt_pos]).
  destruct k; cbn [m_vhigh half_extent].
  - destruct (Rlt_dec _ _); [rewrite S0 by (apply Hd; discriminate); lra|assumption].
  - destruct (Rlt_dec _ _); [rewrite S0 by (apply Hd; discriminate); lra|assumption].
  - specialize (Hk eq_refl). assert (0 <= velfac L * ((h - dr2) / 2)) by (apply Rmult_le_pos; lra).
    destruct (Rlt_dec 0 (velfac L * dr2)); [|assumption]. destruct (Rlt_dec 0 (velfac L * h)); lra.
  - destruct (Rlt_dec _ _); [rewrite S0 by (apply Hd; discriminate); lra|assumption].
Qed.

Lemma C129_wings_aux : forall P L k (n : nat) dr2 dens vel temp smooth z U,
  (0 < n)%nat -> 0 <= sigma_a L -> 0 < bfac L -> 0 < velfac L -> 0 < vbox L -> 0 <= dens -> 0 < temp -> 0 < smooth -> 0 <= U ->
  (k = Voronoi -> dr2 <= smooth) -> (k <> Voronoi -> dr2 < smooth * smooth) ->
  let b := bfac L * sqrt temp in let bin := vbox L / INR n in
  (forall u, U <= Rabs u -> P u 0 <= P u (voigt_fac L / b)) ->
  apart (IZR z * bin - vel) (IZR z * bin - vel + bin) (velfac L * half_extent k dr2 smooth) (U * b) ->
  pixel_tau P (without_damping L) k n dr2 dens vel temp smooth z <= pixel_tau P L k n dr2 dens vel temp smooth z.
Proof.
  intros P L k n dr2 dens vel temp smooth z U Hn Hs Hb Hv Hx Hd Ht Hh HU Hk Hr b bin HP HA.
  assert (Bp : 0 < b) by (apply Rmult_lt_0_compat; [assumption|apply sqrt_lt_R0; assumption]).
  assert (Bi : 0 < bin) by (apply Rmult_lt_0_compat; [assumption|apply Rinv_0_lt_compat, lt_0_INR; lia]).
  unfold pixel_tau, without_damping. cbn [tautail sigma_a bfac voigt_fac velfac vbox]. fold b bin.
  apply Rmult_le_compat_r; [left; apply Rinv_0_lt_compat; assumption|].
  apply Rmult_le_compat_l.
  { apply Rmult_le_pos; [|assumption]. apply Rmult_le_pos.
    - apply Rmult_le_pos; [assumption|]. left. apply Rinv_0_lt_compat, sqrt_lt_R0, PI_RGT_0.
    - apply Rmult_le_pos; [unfold light_kms; lra|left; apply Rinv_0_lt_compat; assumption]. }
  replace (0 / b) with 0 by (unfold Rdiv; ring).
  pose proof (edge_of k L dr2 smooth Hv Hh Hk Hr) as E.
  apply outer_le with U; try assumption.
  - apply Rmult_lt_0_compat; assumption.
  - lra.
  - intros ->. apply Rmult_le_compat_l; [lra|]. apply Hk. reflexivity.
  - destruct HA as [HA|HA]; [left|right]; lra.
Qed.

Lemma C129_constants_aux : forall lambda gamma fosc A velfac boxsize t r, 0 < A -> 0 <= r -> 6.652458558e-25 = 8 * PI / 3 * (r * r) ->
  let L := line_absorption lambda gamma fosc A velfac boxsize t in
  sigma_a L = PI * r * lambda * fosc /\
  (forall T, 0 <= T -> / 2 * (A * 1.67262178e-24) * (bfac L * sqrt T * 1e5) ^ 2 = 1.3806504e-16 * T) /\
  voigt_fac L * 1e5 * (4 * PI) = gamma * lambda /\ vbox L = boxsize * velfac.
Proof.
  intros lambda gamma fosc A vf boxsize t r HA Hr Er L. pose proof PI_RGT_0 as HP. unfold L, line_absorption.
  cbn [sigma_a bfac voigt_fac vbox]. split; [|split; [|split]].
  - replace (3 * PI * SIGMA_T / 8) with ((PI * r) * (PI * r)) by (unfold SIGMA_T; rewrite Er; field).
    rewrite sqrt_square by nra. reflexivity.
  - intros T HT. unfold BOLTZMANN, PROTONMASS. set (kB := 1.3806504e-16). set (mp := 1.67262178e-24).
    assert (Hk : 0 < kB) by (unfold kB; lra). assert (Hm : 0 < mp) by (unfold mp; lra). clearbody kB mp.
    set (e5 := 1e5). assert (He : 0 < e5) by (unfold e5; lra). clearbody e5.
    replace ((sqrt (2 * kB / (A * mp)) / e5 * sqrt T * e5) ^ 2) with
      ((sqrt (2 * kB / (A * mp)) * sqrt (2 * kB / (A * mp))) * (sqrt T * sqrt T)) by (field; lra).
    rewrite !sqrt_sqrt; [field; lra|assumption|]. apply Rmult_le_pos; [lra|]. left. apply Rinv_0_lt_compat. nra.
  - set (e5 := 1e5). assert (He : 0 < e5) by (unfold e5; lra). clearbody e5. field. lra.
  - reflexivity.
Qed.

(** The switch does not reach the gas. *)
Lemma C129_shielded_aux : forall s g gs densities codes i p d c b, sf_neutral g = true -> bg g = Some b -> 0 < gamma_UVB b ->
  0 < conv g -> 0 < thresh g -> length gs = length densities -> length codes = length densities ->
  nth_error gs i = Some p -> nth_error densities i = Some d -> nth_error codes i = Some c -> thresh g < 0.76 * (d * conv g) ->
  exists x rest, rest = neutral_gas g gs densities codes /\
    (forall l get_tau off, hydrogen (switched off s) g gs densities codes l get_tau
       = do_interpolation_work (switched off s) rest 1.00794 l get_tau) /\
    option_map g_dens (nth_error rest i) = Some (g_dens p * x) /\
    (exists photo, 0 < photo < gamma_UVB b /\ in_balance (recomb_rate 1e4) (collisional_rate 1e4) photo (d * conv g) x) /\
    ~ in_balance (recomb_rate 1e4) (collisional_rate 1e4) (gamma_UVB b) (d * conv g) x.
Proof.
  intros s g gs densities codes i p d c b Hsf Hb HG Hc Ht L1 L2 Np Nd Nc HT.
  assert (T4 : 0 < 1e4) by lra.
  assert (Hn : 0 < d * conv g) by lra.
  destruct (C39_balance_aux b (d * conv g) 1e4 HG Hn T4) as (photo & Hp & Ep & Hx & Hx1 & HB).
  exists (neutral_fraction b (d * conv g) 1e4), (neutral_gas g gs densities codes).
  assert (X : in_balance (recomb_rate 1e4) (collisional_rate 1e4) photo (d * conv g) (neutral_fraction b (d * conv g) 1e4)).
  { apply HB; [lra|reflexivity]. }
  split; [reflexivity|]. split; [reflexivity|]. split; [|split; [exists photo; split; assumption|]].
  - unfold neutral_gas, get_reproc_HI. rewrite Hsf, nth_error_map.
    assert (NC : forall (A B : Type) (a : list A) (e : list B) j x y, nth_error a j = Some x -> nth_error e j = Some y ->
       nth_error (combine a e) j = Some (x, y)).
    { intros A B a. induction a as [|a0 a IH]; intros e j x y H1 H2; [destruct j; discriminate|].
      destruct e as [|e0 e]; [destruct j; discriminate|]. destruct j; simpl in *; [congruence|apply IH; assumption]. }
    rewrite (NC _ _ _ _ i p (reproc1 g d c)); [|assumption|].
    + cbn [option_map fst snd g_dens]. unfold reproc1. rewrite Hb.
      destruct (Rlt_dec (thresh g / 0.76 / conv g) d) as [|N]; [reflexivity|]. exfalso. apply N.
      apply Rmult_lt_reg_r with (conv g); [assumption|]. replace (thresh g / 0.76 / conv g * conv g) with (thresh g / 0.76)
        by (unfold Rdiv; rewrite Rmult_assoc, Rinv_l by lra; ring). lra.
    + rewrite nth_error_map, (NC _ _ _ _ i d c); [reflexivity|assumption|assumption].
  - unfold in_balance in *. set (x := neutral_fraction b (d * conv g) 1e4) in *. intros Y.
    assert (0 < x * (d * conv g)) by (apply Rmult_lt_0_compat; lra).
    assert (photo * (x * (d * conv g)) < gamma_UVB b * (x * (d * conv g))) by (apply Rmult_lt_compat_r; lra). lra.
Qed.

(** The mass of a proton stands for the atomic mass unit. *)
Lemma C129_mass_aux : forall lambda gamma fosc A velfac boxsize t T v, 0 < A -> 0 < T -> 0 < v ->
  / 2 * (A * 1.66053906660e-24) * v ^ 2 = 1.3806504e-16 * T ->
  let w := bfac (line_absorption lambda gamma fosc A velfac boxsize t) * sqrt T * 1e5 in 0.996 * v < w < 0.997 * v.
Proof.
  intros lambda gamma fosc A vf boxsize t T v HA HT Hv E w.
  assert (W : / 2 * (A * 1.67262178e-24) * w ^ 2 = 1.3806504e-16 * T).
  { unfold w, line_absorption. cbn [bfac]. unfold BOLTZMANN, PROTONMASS. set (kB := 1.3806504e-16). set (mp := 1.67262178e-24).
    assert (Hk : 0 < kB) by (unfold kB; lra). assert (Hm : 0 < mp) by (unfold mp; lra). clearbody kB mp.
    set (e5 := 1e5). assert (He : 0 < e5) by (unfold e5; lra). clearbody e5.
    replace ((sqrt (2 * kB / (A * mp)) / e5 * sqrt T * e5) ^ 2) with
      ((sqrt (2 * kB / (A * mp)) * sqrt (2 * kB / (A * mp))) * (sqrt T * sqrt T)) by (field; lra).
    rewrite !sqrt_sqrt; [field; lra|lra|]. apply Rmult_le_pos; [lra|]. left. apply Rinv_0_lt_compat. nra. }
  assert (W0 : 0 <= w).
  { unfold w, line_absorption. cbn [bfac]. apply Rmult_le_pos; [|lra]. apply Rmult_le_pos; [|apply sqrt_pos].
    apply Rmult_le_pos; [apply sqrt_pos|lra]. }
  clearbody w. rewrite <- E in W.
  assert (Q : 1.67262178e-24 * w ^ 2 = 1.66053906660e-24 * v ^ 2).
  { apply Rmult_eq_reg_l with (/ 2 * A); [|apply Rgt_not_eq; lra]. 
    transitivity (/ 2 * (A * 1.67262178e-24) * w ^ 2); [|rewrite W]; set (e := 1.67262178e-24); set (f := 1.66053906660e-24); ring. }
  assert (V2 : 0 < v ^ 2) by (simpl; nra).
  assert (Q1 : (0.996 * v) ^ 2 < w ^ 2) by (replace ((0.996 * v) ^ 2) with (0.992016 * v ^ 2) by lra; lra).
  assert (Q2 : w ^ 2 < (0.997 * v) ^ 2) by (replace ((0.997 * v) ^ 2) with (0.994009 * v ^ 2) by lra; lra).
  split; apply Rnot_le_lt; intros B.
  - assert (w ^ 2 <= (0.996 * v) ^ 2) by (apply pow_incr; lra). lra.
  - assert ((0.997 * v) ^ 2 <= w ^ 2) by (apply pow_incr; lra). lra.
Qed.
