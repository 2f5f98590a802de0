(** Tables of rates: published formulas, continuity. *)
From Coq Require Import Reals List Bool Arith Lia Lra.
From Verif Require Import RatesModel RatesProofs RatetabSpec.
Import ListNotations.
Local Open Scope R_scope.

(** ** Published formulas *)

Lemma half_power : forall x, 0 < x -> Rpower x (1/2) = sqrt x.
Proof. intros. replace (1/2) with (/2) by lra. now apply Rpower_sqrt. Qed.

Lemma inv_power : forall x p q, p = - q -> / Rpower x q = Rpower x p.
Proof. intros x p q ->. now rewrite Rpower_Ropp. Qed.

Lemma inv_sqrt : forall x, 0 < x -> / sqrt x = Rpower x (-1/2).
Proof. intros. rewrite <- Rpower_sqrt by auto. apply inv_power. lra. Qed.

Lemma cen_Hp_eq : forall T, 0 < T -> cen_alphaHp T = cen_hydrogenic 8.4e-11 T.
Proof.
  intros T P. unfold cen_alphaHp, cen_hydrogenic, Rdiv at 1 2 3 5.
  rewrite inv_sqrt by auto. rewrite (inv_power _ (-1/5) 0.2) by lra.
  replace 1000 with (10 ^ 3) by ring. replace 1e6 with (10 ^ 6) by lra.
  replace 0.7 with (7/10) by lra. reflexivity.
Qed.

Lemma cen_collisional_eq : forall c b T, 0 < T -> cen_collisional c b T = cen_ionisation c b T.
Proof.
  intros c b T P. unfold cen_collisional, cen_ionisation.
  replace (10 ^ 5) with 1e5 by lra. rewrite !half_power by (try apply Rdiv_pos; lra).
  replace (- b / T) with (- (b / T)) by (unfold Rdiv; ring). reflexivity.
Qed.

Lemma cen_d_eq : forall T, 0 < T -> cen_alphad T = dielectronic 1.9e-3 470000 94000 T.
Proof.
  intros T P. unfold cen_alphad, dielectronic. unfold Rdiv at 1.
  rewrite (inv_power _ (-3/2) 1.5) by lra.
  replace (- 4.7e5 / T) with (- (470000 / T)) by (unfold Rdiv; lra).
  replace (- 9.4e4 / T) with (- (94000 / T)) by (unfold Rdiv; lra).
  replace 0.3 with (3/10) by lra. reflexivity.
Qed.

Lemma verner_d_eq : forall T, 0 < T -> verner_alphad T = dielectronic 1.23e-3 472000 94000 T.
Proof.
  intros T P. unfold verner_alphad, dielectronic. unfold Rdiv at 1.
  rewrite (inv_power _ (-3/2) 1.5) by lra.
  replace (- 4.72e5 / T) with (- (472000 / T)) by (unfold Rdiv; lra).
  replace (- 9.4e4 / T) with (- (94000 / T)) by (unfold Rdiv; lra).
  replace 0.3 with (3/10) by lra. reflexivity.
Qed.

Lemma verner_eq : forall a b T0 T1 T, 0 < T -> 0 < T0 -> 0 < T1 ->
  verner_fit T a b T0 T1 = verner_ferland a b T0 T1 T.
Proof.
  intros. unfold verner_fit, verner_ferland.
  rewrite !half_power by (apply Rdiv_pos; auto). reflexivity.
Qed.

Lemma voronov_eq : forall dE P A X K T, 0 < T -> 0 < dE ->
  voronov_fit T dE P A X K = voronov dE P A X K T.
Proof.
  intros dE P A X K T HT HE. unfold voronov_fit, voronov. cbv zeta.
  rewrite (Rmult_comm 8.61734e-5 T).
  rewrite half_power; [reflexivity|]. apply Rdiv_pos; auto. apply Rmult_lt_0_compat; lra.
Qed.

Lemma C119_cen_aux : forall T, 0 < T ->
  alphaHp cen92 T = cen_hydrogenic 8.4e-11 T /\
  alphaHep cen92 T = 1.5e-10 * Rpower T (-0.6353) /\
  alphad cen92 T = dielectronic 1.9e-3 470000 94000 T /\
  alphaHepp cen92 T = cen_hydrogenic 3.36e-10 T /\
  GammaeH0 cen92 T = cen_ionisation 5.85e-11 157809.1 T /\
  GammaeHe0 cen92 T = cen_ionisation 2.38e-11 285335.4 T /\
  GammaeHep cen92 T = cen_ionisation 5.68e-12 631515 T.
Proof.
  intros T P. cbn [alphaHp alphaHep alphad alphaHepp GammaeH0 GammaeHe0 GammaeHep cen92].
  rewrite !cen_collisional_eq, cen_Hp_eq, cen_d_eq by auto.
  split; [reflexivity|]. split.
  { unfold cen_alphaHep, Rdiv. rewrite (inv_power _ (-0.6353) 0.6353) by lra. reflexivity. }
  split; [reflexivity|]. split; [|split; [|split]]; try reflexivity.
  - unfold cen_hydrogenic. replace 3.36e-10 with (4 * 8.4e-11) by lra. rewrite !Rmult_assoc. reflexivity.
  - replace 631515.0 with 631515 by lra. reflexivity.
Qed.

Lemma verner_Hep_cases : forall T,
  (T < 600000 -> verner_alphaHep T = verner_fit T 3.294e-11 0.6910 1.554e+01 3.676e+07) /\
  (800000 < T -> verner_alphaHep T = verner_fit T 9.356e-10 0.7892 4.266e-02 4.677e+06) /\
  (600000 < T < 800000 -> verner_alphaHep T =
     (verner_fit T 3.294e-11 0.6910 1.554e+01 3.676e+07 * (800000 - T)
      + verner_fit T 9.356e-10 0.7892 4.266e-02 4.677e+06 * (T - 600000)) / 200000) /\
  (T = 600000 \/ T = 800000 -> verner_alphaHep T = 0).
Proof.
  intros T. unfold verner_alphaHep. cbv zeta.
  set (low := verner_fit T 3.294e-11 0.6910 1.554e+01 3.676e+07).
  set (high := verner_fit T 9.356e-10 0.7892 4.266e-02 4.677e+06). clearbody low high.
  unfold ltb.
  assert (E1 : 7e5 - 1e5 = 600000) by lra. assert (E2 : 7e5 + 1e5 = 800000) by lra.
  assert (E3 : 2 * 1e5 = 200000) by lra. rewrite E1, E2, E3.
  destruct (Rlt_dec T 600000); destruct (Rlt_dec 800000 T);
  destruct (Rlt_dec T 800000); destruct (Rlt_dec 600000 T); cbn [b2r];
  repeat split; intros; lra.
Qed.

Lemma C119_verner_aux : forall T, 0 < T ->
  let cool_fit := verner_ferland 3.294e-11 0.691 15.54 36760000 in
  let hot_fit := verner_ferland 9.356e-10 0.7892 0.04266 4677000 in
  alphaHp verner96 T = verner_ferland 7.982e-11 0.748 3.148 703600 T /\
  (T < 600000 -> alphaHep verner96 T = cool_fit T) /\
  (600000 < T < 800000 -> alphaHep verner96 T = blend 600000 800000 cool_fit hot_fit T) /\
  (800000 < T -> alphaHep verner96 T = hot_fit T) /\
  alphad verner96 T = dielectronic 1.23e-3 472000 94000 T /\
  alphaHepp verner96 T = verner_ferland 1.891e-10 0.7524 9.37 2774000 T /\
  GammaeH0 verner96 T = voronov 13.6 0 2.91e-8 0.232 0.39 T /\
  GammaeHe0 verner96 T = voronov 24.6 0 1.75e-8 0.18 0.35 T /\
  GammaeHep verner96 T = voronov 54.4 1 2.05e-9 0.265 0.25 T.
Proof.
  intros T P cool_fit hot_fit.
  cbn [alphaHp alphaHep alphad alphaHepp GammaeH0 GammaeHe0 GammaeHep verner96].
  destruct (verner_Hep_cases T) as (L & H & M & _).
  assert (EL : verner_fit T 3.294e-11 0.6910 1.554e+01 3.676e+07 = cool_fit T).
  { rewrite verner_eq by lra. unfold cool_fit.
    replace 0.6910 with 0.691 by lra. replace 1.554e+01 with 15.54 by lra.
    replace 3.676e+07 with 36760000 by lra. reflexivity. }
  assert (EH : verner_fit T 9.356e-10 0.7892 4.266e-02 4.677e+06 = hot_fit T).
  { rewrite verner_eq by lra. unfold hot_fit.
    replace 4.266e-02 with 0.04266 by lra.
    replace 4.677e+06 with 4677000 by lra. reflexivity. }
  rewrite EL in L, M. rewrite EH in H, M. clearbody cool_fit hot_fit. clear EL EH.
  rewrite !verner_eq, !voronov_eq, verner_d_eq by lra.
  repeat split; auto.
  - replace 7.036e+05 with 703600 by lra. reflexivity.
  - intros B. rewrite (M B). unfold blend. lra.
  - replace 9.370 with 9.37 by lra. replace 2.774e6 with 2774000 by lra. reflexivity.
  - replace 0.291e-07 with 2.91e-8 by lra. reflexivity.
  - replace 0.175e-07 with 1.75e-8 by lra. replace 0.180 with 0.18 by lra. reflexivity.
  - replace 0.205e-08 with 2.05e-9 by lra. reflexivity.
Qed.

Lemma C119_badnell_aux : forall T, 0 < T ->
  alphaHp badnell T = verner_ferland 8.318e-11 0.7472 2.965 700100 T /\
  alphaHep badnell T = verner_ferland 1.818e-10 0.7492 10.17 2786000 T /\
  alphaHepp badnell T
    = verner_ferland 5.235e-11 (0.6988 + 0.0829 * exp (- (168200 / T))) 7.301 4475000 T /\
  alphad badnell T = alphad verner96 T /\
  GammaeH0 badnell T = GammaeH0 verner96 T /\
  GammaeHe0 badnell T = GammaeHe0 verner96 T /\
  GammaeHep badnell T = GammaeHep verner96 T.
Proof.
  intros T P. cbn [alphaHp alphaHep alphad alphaHepp GammaeH0 GammaeHe0 GammaeHep badnell verner96].
  unfold lowcharge_fit. rewrite !verner_eq by lra.
  repeat split.
  - replace 7.001e5 with 700100 by lra. reflexivity.
  - replace 2.786e6 with 2786000 by lra. reflexivity.
  - replace 4.475e6 with 4475000 by lra.
    replace (- (1.682e5) / T) with (- (168200 / T)) by (unfold Rdiv; lra). reflexivity.
Qed.

(** ** Continuity *)

Notation C := continuity_pt.

Lemma C_spec : forall f x, C f x -> continuous_at f x.
Proof.
  intros f x H eps E. destruct (H eps E) as (del & D & P). exists del. split; auto.
  intros y Y. destruct (Req_dec y x) as [-> | N].
  - unfold Rminus. rewrite Rplus_opp_r, Rabs_R0. auto.
  - apply (P y). split; auto. repeat split; auto.
Qed.

Lemma C_const : forall c x, C (fun _ => c) x.
Proof. intros. apply continuity_pt_const. intros a b. reflexivity. Qed.
Lemma C_id : forall x, C (fun y => y) x.
Proof. intros. apply derivable_continuous_pt, derivable_pt_id. Qed.
Lemma C_plus : forall f g x, C f x -> C g x -> C (fun y => f y + g y) x.
Proof. intros. now apply (continuity_pt_plus f g). Qed.
Lemma C_minus : forall f g x, C f x -> C g x -> C (fun y => f y - g y) x.
Proof. intros. now apply (continuity_pt_minus f g). Qed.
Lemma C_mult : forall f g x, C f x -> C g x -> C (fun y => f y * g y) x.
Proof. intros. now apply (continuity_pt_mult f g). Qed.
Lemma C_opp : forall f x, C f x -> C (fun y => - f y) x.
Proof. intros. now apply (continuity_pt_opp f). Qed.
Lemma C_div : forall f g x, C f x -> C g x -> g x <> 0 -> C (fun y => f y / g y) x.
Proof. intros. now apply (continuity_pt_div f g). Qed.
Lemma C_exp : forall f x, C f x -> C (fun y => exp (f y)) x.
Proof.
  intros. apply (continuity_pt_comp f exp); auto. apply derivable_continuous_pt, derivable_pt_exp.
Qed.
Lemma C_sqrt : forall f x, C f x -> 0 < f x -> C (fun y => sqrt (f y)) x.
Proof.
  intros. apply (continuity_pt_comp f sqrt); auto. apply continuity_pt_sqrt. lra.
Qed.
Lemma C_ln : forall f x, C f x -> 0 < f x -> C (fun y => ln (f y)) x.
Proof.
  intros f x H P. apply (continuity_pt_comp f ln); auto. apply derivable_continuous_pt.
  exists (/ f x). now apply derivable_pt_lim_ln.
Qed.
Lemma C_pow : forall f n x, C f x -> C (fun y => f y ^ n) x.
Proof.
  intros f n x H. induction n as [|n IH]; cbn [pow]. apply C_const. now apply C_mult.
Qed.
Lemma C_rpower : forall f g x, C f x -> C g x -> 0 < f x -> C (fun y => Rpower (f y) (g y)) x.
Proof.
  intros f g x F G P. unfold Rpower. apply C_exp, C_mult; auto. now apply C_ln.
Qed.
Lemma C_ext : forall f g x del, 0 < del -> (forall y, Rabs (y - x) < del -> f y = g y) -> C f x -> C g x.
Proof.
  intros f g x del D E H eps EP. destruct (H eps EP) as (d & D' & P).
  exists (Rmin d del). split. now apply Rmin_pos.
  intros y (N & Y). cbn in Y. unfold R_dist in Y.
  pose proof (Rmin_l d del). pose proof (Rmin_r d del).
  rewrite <- !E; [|unfold Rminus; rewrite Rplus_opp_r, Rabs_R0; auto | lra].
  apply P. split; auto. cbn. unfold R_dist. lra.
Qed.

Ltac cont := first [apply C_const | lazymatch goal with
  | |- C (fun y => y) _ => apply C_id
  | |- C (fun y => @?f y + @?g y) _ => apply (C_plus f g); cont
  | |- C (fun y => @?f y - @?g y) _ => apply (C_minus f g); cont
  | |- C (fun y => @?f y * @?g y) _ => apply (C_mult f g); cont
  | |- C (fun y => @?f y / @?g y) _ => apply (C_div f g); [cont | cont | cbv beta]
  | |- C (fun y => - @?f y) _ => apply (C_opp f); cont
  | |- C (fun y => exp (@?f y)) _ => apply (C_exp f); cont
  | |- C (fun y => sqrt (@?f y)) _ => apply (C_sqrt f); [cont | cbv beta]
  | |- C (fun y => Rpower (@?f y) (@?g y)) _ => apply (C_rpower f g); [cont | cont | cbv beta]
  | |- C (fun y => ln (@?f y)) _ => apply (C_ln f); [cont | cbv beta]
  | |- C (fun y => (@?f y) ^ ?n) _ => apply (C_pow f n); cont
  | |- _ => idtac
  end].

Lemma sqrt1 : forall x, 0 < 1 + sqrt x.
Proof. intros. pose proof (sqrt_pos x). lra. Qed.
Lemma rp1 : forall x y, 0 < 1 + Rpower x y.
Proof. intros. pose proof (Rpower_pos x y). lra. Qed.

Ltac nz := try match goal with
  | |- ?a <> 0 => apply Rgt_not_eq; unfold Rgt
  end;
  repeat first [ lra | match goal with
    | |- 0 < ?a / ?b => apply Rdiv_pos
    | |- 0 < ?a * ?b => apply Rmult_lt_0_compat
    | |- 0 < Rpower _ _ => apply Rpower_pos
    | |- 0 < 1 + sqrt _ => apply sqrt1
    | |- 0 < 1 + Rpower _ _ => apply rp1
    | |- 0 < sqrt _ => apply sqrt_lt_R0
    | |- 0 < exp _ => apply exp_pos
    end ].

Lemma C_cen_Hp : forall T, 0 < T -> C cen_alphaHp T.
Proof. intros T P. unfold cen_alphaHp. change (C (fun T => 8.4e-11 / sqrt T / Rpower (T / 1000) 0.2 / (1 + Rpower (T / 1e6) 0.7)) T). cont; nz. Qed.

Lemma C_cen_Hep : forall T, 0 < T -> C cen_alphaHep T.
Proof. intros T P. unfold cen_alphaHep. cont; nz. Qed.

Lemma C_diel : forall c a b T, 0 < T -> C (fun T => c / Rpower T 1.5 * exp (a / T) * (1 + 0.3 * exp (b / T))) T.
Proof. intros c a b T P. cont; nz. Qed.

Lemma C_cen_coll : forall c b T, 0 < T -> C (cen_collisional c b) T.
Proof. intros c b T P. unfold cen_collisional. cont; nz. Qed.

Lemma C_verner : forall a (b : R -> R) T0 T1 T, 0 < T -> 0 < T0 -> 0 < T1 -> C b T ->
  C (fun T => verner_fit T a (b T) T0 T1) T.
Proof.
  intros a b T0 T1 T P P0 P1 B. unfold verner_fit. cont; try exact B; nz; auto.
Qed.

Lemma C_voronov : forall dE PP A X K T, 0 < T -> 0 < dE -> 0 < X ->
  C (fun T => voronov_fit T dE PP A X K) T.
Proof.
  intros dE PP A X K T P E H. unfold voronov_fit. cbv zeta.
  assert (U : 0 < dE / (8.61734e-5 * T)) by nz.
  cont; try exact U; nz.
Qed.

Lemma C_verner_Hep : forall T, 0 < T -> T <> 600000 -> T <> 800000 -> C verner_alphaHep T.
Proof.
  intros T P N1 N2.
  pose proof (C_verner 3.294e-11 (fun _ => 0.6910) 1.554e+01 3.676e+07 T P ltac:(lra) ltac:(lra) (C_const _ _)) as CL.
  pose proof (C_verner 9.356e-10 (fun _ => 0.7892) 4.266e-02 4.677e+06 T P ltac:(lra) ltac:(lra) (C_const _ _)) as CH.
  cbv beta in CL, CH.
  destruct (Rlt_dec T 600000) as [L | L]; [|destruct (Rlt_dec 800000 T) as [H | H]].
  - apply (C_ext _ _ T (600000 - T)) with (3 := CL); [lra|].
    intros y Y. apply Rabs_def2 in Y. symmetry. apply verner_Hep_cases. lra.
  - apply (C_ext _ _ T (T - 800000)) with (3 := CH); [lra|].
    intros y Y. apply Rabs_def2 in Y. symmetry. apply verner_Hep_cases. lra.
  - apply (C_ext (fun T => (verner_fit T 3.294e-11 0.6910 1.554e+01 3.676e+07 * (800000 - T)
      + verner_fit T 9.356e-10 0.7892 4.266e-02 4.677e+06 * (T - 600000)) / 200000) _ T
      (Rmin (T - 600000) (800000 - T))).
    + apply Rmin_pos; lra.
    + intros y Y. apply Rabs_def2 in Y.
      pose proof (Rmin_l (T - 600000) (800000 - T)). pose proof (Rmin_r (T - 600000) (800000 - T)).
      symmetry. apply verner_Hep_cases. lra.
    + cont; try exact CL; try exact CH; lra.
Qed.

Lemma C_tables : forall r T, r = cen92 \/ r = verner96 \/ r = badnell -> 0 < T ->
  C (alphaHp r) T /\ C (alphad r) T /\ C (alphaHepp r) T /\
  C (GammaeH0 r) T /\ C (GammaeHe0 r) T /\ C (GammaeHep r) T.
Proof.
  intros r T [-> | [-> | ->]] P;
    cbn [alphaHp alphaHep alphad alphaHepp GammaeH0 GammaeHe0 GammaeHep cen92 badnell verner96].
  - repeat split; try (now apply C_cen_coll).
    + now apply C_cen_Hp.
    + now apply C_diel.
    + apply C_mult; [apply C_const | now apply C_cen_Hp].
  - repeat split; try (apply C_voronov; lra).
    + apply (C_verner _ (fun _ => 0.748)); try lra. apply C_const.
    + now apply C_diel.
    + apply (C_verner _ (fun _ => 0.7524)); try lra. apply C_const.
  - repeat split; try (apply C_voronov; lra).
    + apply (C_verner _ (fun _ => 0.7472)); try lra. apply C_const.
    + now apply C_diel.
    + unfold lowcharge_fit. apply (C_verner _ (fun T => 0.6988 + 0.0829 * exp (- (1.682e5) / T))); try lra.
      cont; nz.
Qed.

Lemma C_Hep : forall r T, r = cen92 \/ r = verner96 \/ r = badnell -> 0 < T ->
  (r = verner96 -> T <> 600000 /\ T <> 800000) -> C (alphaHep r) T.
Proof.
  intros r T [-> | [-> | ->]] P N; cbn [alphaHep cen92 badnell verner96].
  - now apply C_cen_Hep.
  - destruct (N eq_refl). now apply C_verner_Hep.
  - apply (C_verner _ (fun _ => 0.7492)); try lra. apply C_const.
Qed.

Lemma C119_continuous_aux : forall r T, r = cen92 \/ r = verner96 \/ r = badnell -> 0 < T ->
  continuous_at (alphaHp r) T /\ continuous_at (alphad r) T /\ continuous_at (alphaHepp r) T /\
  continuous_at (GammaeH0 r) T /\ continuous_at (GammaeHe0 r) T /\ continuous_at (GammaeHep r) T /\
  (r = verner96 -> T <> 600000 /\ T <> 800000 -> continuous_at (alphaHep r) T) /\
  (r <> verner96 -> continuous_at (alphaHep r) T).
Proof.
  intros r T S P. destruct (C_tables r T S P) as (A & B & D & E & F & G).
  do 6 (split; [apply C_spec; assumption|]). split.
  - intros E1 N. apply C_spec, C_Hep; auto.
  - intros N. apply C_spec, C_Hep; auto; intros X; contradiction.
Qed.

Lemma near_half : forall f x, C f x -> 0 < f x ->
  exists del, 0 < del /\ forall y, Rabs (y - x) < del -> f x / 2 < f y.
Proof.
  intros f x H P. destruct (C_spec f x H (f x / 2) ltac:(lra)) as (del & D & N).
  exists del. split; auto. intros y Y. specialize (N y Y). apply Rabs_def2 in N. lra.
Qed.

Lemma C119_gap_aux : forall T, T = 600000 \/ T = 800000 ->
  alphaHep verner96 T = 0 /\ (exists m, 0 < m /\ isolated_dip (alphaHep verner96) T m) /\
  ~ continuous_at (alphaHep verner96) T.
Proof.
  intros T HT. cbn [alphaHep verner96].
  assert (P : 0 < T) by (destruct HT; lra).
  pose proof (proj2 (proj2 (proj2 (verner_Hep_cases T))) HT) as Z.
  assert (D : exists m, 0 < m /\ isolated_dip verner_alphaHep T m).
  { set (lo := fun T => verner_fit T 3.294e-11 0.6910 1.554e+01 3.676e+07).
    set (hi := fun T => verner_fit T 9.356e-10 0.7892 4.266e-02 4.677e+06).
    pose proof (C_verner 3.294e-11 (fun _ => 0.6910) 1.554e+01 3.676e+07 T P ltac:(lra) ltac:(lra) (C_const _ _)) as CL.
    pose proof (C_verner 9.356e-10 (fun _ => 0.7892) 4.266e-02 4.677e+06 T P ltac:(lra) ltac:(lra) (C_const _ _)) as CH.
    cbv beta in CL, CH. fold lo in CL. fold hi in CH.
    assert (PL : forall y, 0 < y -> 0 < lo y) by (intros; apply verner_fit_pos; lra).
    assert (PH : forall y, 0 < y -> 0 < hi y) by (intros; apply verner_fit_pos; lra).
    destruct (near_half lo T CL (PL T P)) as (d1 & D1 & N1).
    destruct (near_half hi T CH (PH T P)) as (d2 & D2 & N2).
    set (m := Rmin (lo T / 2) (hi T / 2)).
    assert (M0 : 0 < m) by (apply Rmin_pos; [pose proof (PL T P) | pose proof (PH T P)]; lra).
    assert (M1 : m <= lo T / 2) by apply Rmin_l. assert (M2 : m <= hi T / 2) by apply Rmin_r.
    exists m. split; auto. exists (Rmin (Rmin d1 d2) 1000). split.
    { repeat apply Rmin_pos; auto. lra. }
    intros y N Y. rewrite Z.
    pose proof (Rmin_l (Rmin d1 d2) 1000). pose proof (Rmin_r (Rmin d1 d2) 1000).
    pose proof (Rmin_l d1 d2). pose proof (Rmin_r d1 d2).
    specialize (N1 y ltac:(lra)). specialize (N2 y ltac:(lra)).
    apply Rabs_def2 in Y.
    destruct (verner_Hep_cases y) as (A & B & M & _). fold (lo y) (hi y) in A, B, M.
    destruct (Rlt_dec y 600000) as [L | L]; [rewrite A by lra; lra|].
    destruct (Rlt_dec 800000 y) as [H4 | H4]; [rewrite B by lra; lra|].
    rewrite M by (destruct HT; lra).
    assert (0 <= (lo y - m) * (800000 - y)) by (apply Rmult_le_pos; lra).
    assert (0 <= (hi y - m) * (y - 600000)) by (apply Rmult_le_pos; lra). lra. }
  split; auto. split; auto.
  intros CC. destruct D as (m & M & del & D & N). destruct (CC m M) as (d & D' & N').
  set (y := T + Rmin d del / 2).
  assert (0 < Rmin d del) by (now apply Rmin_pos).
  pose proof (Rmin_l d del). pose proof (Rmin_r d del).
  assert (Y : Rabs (y - T) = Rmin d del / 2).
  { unfold y. replace (T + Rmin d del / 2 - T) with (Rmin d del / 2) by ring. apply Rabs_right. lra. }
  specialize (N y ltac:(unfold y; lra) ltac:(lra)). specialize (N' y ltac:(lra)).
  apply Rabs_def2 in N'. lra.
Qed.
