(** Proofs about the curve of growth. *)
From Coq Require Import ZArith Reals Lra Lia Arith Classical_Prop.
From Coquelicot Require Import Coquelicot.
From Coq Require Import List.
From Flocq Require Import Core.Raux.
From Verif Require Import AbsorptionModel AbsorptionSpec AbsorptionProofs TauProofs StrengthSpec StrengthProofs5 StrengthProps FluxSpec ObserverModel ObserverProofs AgreeProofs.
Import ListNotations.
Local Open Scope R_scope.

Lemma trapz_map_le : forall (A : Type) dx (f g : A -> R) l, 0 <= dx -> (forall x, In x l -> f x <= g x) ->
  trapz dx (map f l) <= trapz dx (map g l).
Proof.
  intros A dx f g l Hd H. apply trapz_mono; [assumption|]. induction l as [|x l IH]; [constructor|].
  constructor; [apply H; left; reflexivity|]. apply IH. intros y Hy. apply H. right. assumption.
Qed.

Lemma trapz_map_scal : forall (A : Type) dx a (f : A -> R) l, trapz dx (map (fun x => a * f x) l) = a * trapz dx (map f l).
Proof.
  intros A dx a f. induction l as [|x l IH]; [cbn; ring|]. destruct l as [|y l]; [cbn; ring|].
  change (dx * (a * f x + a * f y) / 2 + trapz dx (map (fun x => a * f x) (y :: l)) = a * (dx * (f x + f y) / 2 + trapz dx (map f (y :: l)))).
  rewrite IH. field.
Qed.

Lemma trapz_map_plus : forall (A : Type) dx (f g : A -> R) l, trapz dx (map (fun x => f x + g x) l) = trapz dx (map f l) + trapz dx (map g l).
Proof.
  intros A dx f g. induction l as [|x l IH]; [cbn; ring|]. destruct l as [|y l]; [cbn; ring|].
  change (dx * (f x + g x + (f y + g y)) / 2 + trapz dx (map (fun x => f x + g x) (y :: l)) =
    dx * (f x + f y) / 2 + trapz dx (map f (y :: l)) + (dx * (g x + g y) / 2 + trapz dx (map g (y :: l)))).
  rewrite IH. field.
Qed.

(** ** One pixel *)

Lemma absorbed_le : forall t, 1 - exp (- t) <= t.
Proof. intros t. pose proof (exp_tangent 0 t) as Q. rewrite Ropp_0, exp_0 in Q. lra. Qed.

Lemma absorbed_mono : forall t u, t <= u -> 1 - exp (- t) <= 1 - exp (- u).
Proof.
  intros t u H. destruct (Req_dec t u) as [->|N]; [lra|]. pose proof (exp_increasing (- u) (- t) ltac:(lra)). lra.
Qed.

Lemma absorbed_scaled : forall a t, 1 <= a -> 0 <= t -> 1 - exp (- (a * t)) <= a * (1 - exp (- t)).
Proof.
  intros a t Ha Ht. pose proof (exp_tangent t (a * t)) as Q. pose proof (exp_tangent t 0) as Q0. rewrite Ropp_0, exp_0 in Q0.
  set (x := exp (- t)) in *. set (y := exp (- (a * t))) in *.
  assert (D : 0 <= (a - 1) * (1 - x * (1 + t))) by (apply Rmult_le_pos; lra).
  replace ((a - 1) * (1 - x * (1 + t))) with (a - 1 - (a - 1) * x - (a * (x * t) - x * t)) in D by ring.
  replace (x * (1 + t - a * t)) with (x - (a * (x * t) - x * t)) in Q by ring. lra.
Qed.

Lemma absorbed_plus : forall t u, 0 <= t -> 0 <= u -> 1 - exp (- (t + u)) <= (1 - exp (- t)) + (1 - exp (- u)).
Proof.
  intros t u Ht Hu. replace (- (t + u)) with (- t + - u) by ring. rewrite exp_plus. destruct (absorbed t Ht), (absorbed u Hu).
  assert (0 <= (1 - exp (- t)) * (1 - exp (- u))) by (apply Rmult_le_pos; lra). lra.
Qed.

Lemma absorbed_second : forall t, 0 <= t -> t - t * t / 2 <= 1 - exp (- t).
Proof.
  intros t Ht. destruct (Req_dec t 0) as [->|N]; [rewrite Ropp_0, exp_0; lra|].
  destruct (MVT_cor2 (fun x => 1 - x + x * x / 2 - exp (- x)) (fun x => -1 + x + exp (- x)) 0 t) as (c & E & Hc); [lra| |].
  - intros c _. replace (-1 + c + exp (- c)) with (-1 + c - - exp (- c)) by ring.
    apply (derivable_pt_lim_minus (fun x => 1 - x + x * x / 2) (fun x => exp (- x)) c (-1 + c) (- exp (- c))).
    + replace (-1 + c) with (0 - 1 + (1 * c + c * 1) * / 2) by field.
      apply (derivable_pt_lim_plus (fun x => 1 - x) (fun x => x * x / 2)).
      * apply (derivable_pt_lim_minus (fun _ => 1) (fun x => x)); [apply derivable_pt_lim_const|apply derivable_pt_lim_id].
      * replace ((1 * c + c * 1) * / 2) with ((1 * c + c * 1) * / 2 + (c * c) * 0) by ring.
        apply (derivable_pt_lim_mult (fun x => x * x) (fun _ => / 2)); [|apply derivable_pt_lim_const].
        apply (derivable_pt_lim_mult (fun x => x) (fun x => x)); apply derivable_pt_lim_id.
    + replace (- exp (- c)) with (exp (- c) * (- (1))) by ring.
      apply (derivable_pt_lim_comp (fun x => - x) exp); [apply (derivable_pt_lim_opp (fun x => x)); apply derivable_pt_lim_id|apply derivable_pt_lim_exp].
  - rewrite Ropp_0, exp_0 in E. pose proof (absorbed_le c) as Q.
    assert (P : 0 <= (-1 + c + exp (- c)) * (t - 0)) by (apply Rmult_le_pos; lra). rewrite <- E in P. lra.
Qed.

Lemma absorbed_thin : forall e t, 0 <= t <= e -> (1 - e / 2) * t <= 1 - exp (- t).
Proof.
  intros e t Ht. pose proof (absorbed_second t ltac:(lra)).
  assert (t * t <= e * t) by (apply Rmult_le_compat_r; lra). lra.
Qed.

(** ** Spectra *)

Section Widths.
Variables dvbin light line : R.
Hypothesis Hd : 0 < dvbin.
Hypothesis Hl : 0 < light.
Hypothesis Hn : 0 < line.
Let step := dvbin / (light / 100000) * line.

Lemma step_pos' : 0 < step.
Proof. apply step_pos; assumption. Qed.

Lemma trapz_le_sum : forall row, List.Forall (fun t => 0 <= t) row -> trapz step row <= step * rsum row.
Proof.
  intros row Hp. pose proof step_pos'. destruct row as [|x row]; [cbn; lra|].
  rewrite trapz_sum by discriminate. rewrite List.Forall_forall in Hp.
  pose proof (Hp x ltac:(left; reflexivity)) as Hx. pose proof (Hp _ (last_In (x :: row) 0 ltac:(discriminate))) as Hlast. cbn [hd].
  apply Rmult_le_compat_l; lra.
Qed.

Lemma C111_limit_aux : forall row w, List.Forall (fun t => 0 <= t) row -> equivalent_width dvbin light line [row] = [w] ->
  w <= line / (light / 100000) * (dvbin * rsum row).
Proof.
  intros row w Hp E. unfold equivalent_width in E. cbn [map] in E. injection E as <-. fold step.
  replace (line / (light / 100000) * (dvbin * rsum row)) with (step * rsum row) by (unfold step; field; lra).
  eapply Rle_trans; [|apply trapz_le_sum; assumption]. pose proof step_pos'.
  rewrite <- (map_id row) at 2. apply trapz_map_le; [lra|]. intros t _. apply absorbed_le.
Qed.

Lemma C111_thin_aux : forall row w e, List.Forall (fun t => 0 <= t <= e) row -> hd 0 row = 0 -> last row 0 = 0 ->
  equivalent_width dvbin light line [row] = [w] ->
  (1 - e / 2) * (line / (light / 100000) * (dvbin * rsum row)) <= w <= line / (light / 100000) * (dvbin * rsum row).
Proof.
  intros row w e Hp H0 H1 E. split.
  - unfold equivalent_width in E. cbn [map] in E. injection E as <-. fold step.
    replace (line / (light / 100000) * (dvbin * rsum row)) with (trapz step row).
    + rewrite <- (map_id row) at 1. rewrite <- trapz_map_scal. pose proof step_pos'. apply trapz_map_le; [lra|].
      intros t Ht. rewrite List.Forall_forall in Hp. apply absorbed_thin. apply Hp. assumption.
    + destruct row as [|x row]; [cbn; field; lra|]. rewrite trapz_sum by discriminate. rewrite H0, H1. unfold step. field. lra.
  - apply C111_limit_aux; [|assumption]. revert Hp. apply List.Forall_impl. intros; lra.
Qed.

Lemma C111_growth_aux : forall a tau, 1 <= a -> List.Forall (List.Forall (fun t => 0 <= t)) tau ->
  Forall2 (fun w w' => w <= w' <= a * w) (equivalent_width dvbin light line tau)
    (equivalent_width dvbin light line (map (map (fun t => a * t)) tau)).
Proof.
  intros a tau Ha. unfold equivalent_width. fold step. pose proof step_pos' as Hs. induction 1 as [|row tau Hp _ IH]; [constructor|].
  cbn [map]. constructor; [|assumption]. rewrite map_map. rewrite List.Forall_forall in Hp. split.
  - apply trapz_map_le; [lra|]. intros t Ht. specialize (Hp t Ht). apply absorbed_mono.
    assert (0 <= (a - 1) * t) by (apply Rmult_le_pos; lra). lra.
  - rewrite <- trapz_map_scal. apply trapz_map_le; [lra|]. intros t Ht. apply absorbed_scaled; [assumption|apply Hp; assumption].
Qed.

Lemma split_map : forall (g : R -> R) (x y : list R), length x = length y ->
  map g x = map (fun p => g (fst p)) (combine x y) /\ map g y = map (fun p => g (snd p)) (combine x y).
Proof.
  intros g. induction x as [|a x IH]; intros [|b y] H; try discriminate; [split; reflexivity|]. cbn [combine map fst snd].
  injection H as H. destruct (IH y H) as (-> & ->). split; reflexivity.
Qed.

Lemma C111_blend_aux : forall x y wx wy w, length x = length y -> List.Forall (fun t => 0 <= t) x -> List.Forall (fun t => 0 <= t) y ->
  equivalent_width dvbin light line [x; y; map (fun p => fst p + snd p) (combine x y)] = [wx; wy; w] ->
  wx <= w /\ wy <= w /\ w <= wx + wy.
Proof.
  intros x y wx wy w Hlen Hx Hy E. unfold equivalent_width in E. cbn [map] in E. fold step in E. injection E as <- <- <-. pose proof step_pos' as Hs.
  rewrite map_map. destruct (split_map (fun t => 1 - exp (- t)) x y Hlen) as (-> & ->).
  assert (P : forall p, In p (combine x y) -> 0 <= fst p /\ 0 <= snd p).
  { intros [a b] Hin. rewrite List.Forall_forall in Hx, Hy. split; [apply Hx; apply (in_combine_l _ _ _ _ Hin)|apply Hy; apply (in_combine_r _ _ _ _ Hin)]. }
  split; [|split].
  - apply trapz_map_le; [lra|]. intros p Hp. destruct (P p Hp). apply absorbed_mono. lra.
  - apply trapz_map_le; [lra|]. intros p Hp. destruct (P p Hp). apply absorbed_mono. lra.
  - rewrite <- trapz_map_plus. apply trapz_map_le; [lra|]. intros p Hp. destruct (P p Hp). apply absorbed_plus; assumption.
Qed.
End Widths.

(** ** Particles *)

Lemma rsum_repeat0 : forall n, rsum (repeat 0 n) = 0.
Proof. induction n as [|n IH]; [reflexivity|]. change (0 + rsum (repeat 0 n) = 0). rewrite IH. ring. Qed.

Section Atoms.
Variable profile : R -> R -> R.
Hypothesis thermal_profile : forall u, profile u 0 = exp (- (u * u)).
Variable L : AbsorptionModel.line.
Hypothesis no_damping : voigt_fac L = 0.
Hypothesis Hsig : 0 <= sigma_a L.
Hypothesis Hb : 0 < bfac L.
Hypothesis Hv : 0 < velfac L.
Hypothesis Hbox : 0 < vbox L.

Lemma one_nonneg : forall k (n : nat) q p tau tau', (0 < n)%nat -> length tau = n -> contained L k n q p ->
  add_tau_particle profile L k (Z.of_nat n) (p_dr2 p) (p_dens p) (p_pos p) (p_vel p) (p_temp p) (p_smooth p) tau = Some tau' ->
  length tau' = n /\ (List.Forall (fun t => 0 <= t) tau -> List.Forall (fun t => 0 <= t) tau').
Proof.
  intros k n q p tau tau' Hn Hlen (C1 & C2 & C3 & C4 & C5 & C6) E.
  destruct (C10_pixels_aux profile L k n (p_dr2 p) (p_dens p) (p_pos p) (p_vel p) (p_temp p) (p_smooth p) tau Hn Hlen C4)
    as (t & Et & Lt & W & O). rewrite E in Et. injection Et as <-. split; [exact Lt|]. intros Hp.
  assert (P : forall j, 0 <= nth j tau 0).
  { intros j. destruct (Nat.lt_ge_cases j (length tau)) as [Lj|Lj]; [|rewrite nth_overflow by assumption; lra].
    rewrite List.Forall_forall in Hp. apply Hp. apply nth_In. assumption. }
  apply List.Forall_forall. intros x Hx. destruct (In_nth _ _ 0 Hx) as (j & Lj & <-).
  set (c := Zfloor _) in *.
  destruct (classic (exists z, in_window (Z.of_nat n) c z /\ (z mod Z.of_nat n)%Z = Z.of_nat j)) as [(z & Hz & Ej)|N].
  - destruct (W z Hz) as (W1 & W2). cbn zeta in W1, W2. rewrite Ej, Nat2Z.id in W1, W2.
    destruct (classic (reached (tautail L) (pixel_tau profile L k n (p_dr2 p) (p_dens p)
      (particle_vel L k (p_dr2 p) (p_pos p) (p_vel p) (p_smooth p)) (p_temp p) (p_smooth p)) c z)) as [R1|R1].
    + rewrite (W1 R1). apply Rplus_le_le_0_compat; [apply P|]. apply pixel_nonneg; try assumption.
      destruct k; try exact C4. apply C5. reflexivity.
    + rewrite (W2 R1). apply P.
  - rewrite O; [apply P|]. intros z Hz Ez. apply N. exists z. split; assumption.
Qed.

Lemma many_nonneg : forall k (n : nat) q ps tau tau', (0 < n)%nat -> length tau = n -> (forall p, In p ps -> contained L k n q p) ->
  in_turn (fun p => add_tau_particle profile L k (Z.of_nat n) (p_dr2 p) (p_dens p) (p_pos p) (p_vel p) (p_temp p) (p_smooth p)) ps tau tau' ->
  List.Forall (fun t => 0 <= t) tau -> List.Forall (fun t => 0 <= t) tau'.
Proof.
  intros k n q. induction ps as [|p ps IH]; intros tau tau' Hn Hlen C H Hp; [cbn in H; subst; assumption|].
  destruct H as (t & E & H). destruct (one_nonneg k n q p tau t Hn Hlen (C p ltac:(left; reflexivity)) E) as (Lt & Q).
  apply (IH t tau' Hn Lt); [intros p' Hp'; apply C; right; assumption|exact H|apply Q; exact Hp].
Qed.

Lemma C111_atoms_aux : forall k (n : nat) q e ps tau' light wavelength w, tautail L = 0 -> (0 < n)%nat -> 1 <= q ->
  (forall p, In p ps -> contained L k n q p /\ allowance (vbox L / INR n) (bfac L * sqrt (p_temp p)) q <= e) ->
  in_turn (fun p => add_tau_particle profile L k (Z.of_nat n) (p_dr2 p) (p_dens p) (p_pos p) (p_vel p) (p_temp p) (p_smooth p))
    ps (repeat 0 n) tau' ->
  0 < light -> 0 < wavelength -> equivalent_width (vbox L / INR n) light wavelength [tau'] = [w] ->
  0 <= w <= wavelength / (light / 100000) * (absorption L * rsum (map (column k) ps) * (1 + e)).
Proof.
  intros k n q e ps tau' light wavelength w Htl Hn Hq HP HT Hl Hw E.
  assert (HN : 0 < INR n) by (apply lt_0_INR; assumption).
  assert (Hbin : 0 < vbox L / INR n) by (apply Rdiv_lt_0_compat; assumption).
  assert (Z : List.Forall (fun t => 0 <= t) (repeat 0 n)) by (apply List.Forall_forall; intros x Hx; rewrite (repeat_spec _ _ _ Hx); lra).
  pose proof (many_nonneg k n q ps _ _ Hn (repeat_length 0 n) (fun p Hp => proj1 (HP p Hp)) HT Z) as Hpos.
  pose proof (C104_many profile L k n q e ps _ _ thermal_profile no_damping Htl Hsig Hb Hv Hbox Hn (repeat_length 0 n) Hq HP HT) as T.
  cbn zeta in T. rewrite rsum_repeat0, Rminus_0_r in T. apply Rabs_le_between in T. split.
  - unfold equivalent_width in E. cbn [map] in E. injection E as <-. pose proof (step_pos (vbox L / INR n) light wavelength Hbin Hl Hw) as Hs.
    apply Rle_trans with (trapz (vbox L / INR n / (light / 100000) * wavelength) (map (fun _ => 0) tau')).
    + right. replace (map (fun _ => 0) tau') with (repeat 0 (length tau')); [rewrite trapz_zero; reflexivity|].
      clear. induction tau' as [|x l IH]; [reflexivity|]. cbn [length repeat map]. rewrite IH. reflexivity.
    + apply trapz_map_le; [lra|]. intros t Ht. rewrite List.Forall_forall in Hpos. apply absorbed. apply Hpos. assumption.
  - eapply Rle_trans; [apply (C111_limit_aux (vbox L / INR n) light wavelength Hbin Hl Hw tau' w Hpos E)|].
    apply Rmult_le_compat_l; [|lra]. left. apply Rdiv_lt_0_compat; [assumption|lra].
Qed.
End Atoms.
