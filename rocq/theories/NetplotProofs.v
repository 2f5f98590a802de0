(** What the plots of the rate network show. *)
From Coq Require Import Reals List Bool Arith Lia Lra.
From Verif Require Import RatesModel RatesSpec RatesProofs IoniseSpec IoniseProofs IoniseProofs2 IoniseProofs3 IoniseProofs4.
From Verif Require Import NetplotModel NetplotSpec.
From Verif Require GridModel GridProofs3 TempdensModel.
Import ListNotations.
Local Open Scope R_scope.

Section net.
Variables (n : network) (mi : nat).
Hypothesis SH : shipped (recomb n).
Hypothesis PF : 0 < photo_factor n.
Hypothesis SS : selfshield n = false.

Lemma balances : forall nh t x, 0 < nh -> 0 < t -> 1e-40 < x ->
  (forall a b, hydrogen_at n (x * nh) t a b <-> a = nH0 n nh t x /\ b = nHp n nh t x) /\
  (forall a b c, helium_at n (x * nh) t a b c <-> Some a = nHe0 n nh t x /\ b = nHep n nh t x /\ c = nHepp n nh t x).
Proof.
  intros nh t x N T X. destruct (C38_equilibrium_aux n nh t x SH PF N T X) as (s & _ & S1 & H1 & H2).
  rewrite (S1 SS) in H1, H2. rewrite Rmult_1_r in H1.
  rewrite (Rmult_1_r (gHe0 n * photo_factor n)), (Rmult_1_r (gHep n * photo_factor n)) in H2. split; [exact H1 | exact H2].
Qed.

Lemma equilib : forall dens u ne, length dens = length u -> List.Forall (fun d => 0 < d) dens -> List.Forall (fun e => 0 < e) u ->
  get_equilib_ne n mi dens u 0.24 = Value ne ->
  length ne = length dens /\
  forall i d e m, nth_error dens i = Some d -> nth_error u i = Some e -> nth_error ne i = Some m ->
    0 < d /\ 0 < e /\ exists t, get_temp (m / (d * (1 - 0.24))) e 0.24 = Some t /\ settled n (converge n) d e m t.
Proof.
  intros dens u ne L D U E.
  destruct (C40_solution_aux n mi dens u 0.24 SH ltac:(lra) ltac:(lra) L D U) as [_ SOL].
  destruct (SOL ne E) as [LN SOL2]. split; [exact LN|]. intros i d e m Nd Nu Nm.
  assert (D0 : 0 < d) by (rewrite Forall_forall in D; apply D; eapply nth_error_In; eauto).
  assert (U0 : 0 < e) by (rewrite Forall_forall in U; apply U; eapply nth_error_In; eauto).
  split; [exact D0|]. split; [exact U0|].
  destruct (SOL2 i d e m Nd Nu Nm) as (B & t & G & T & RS).
  exists t. split; [exact G|].
  replace (d * (1 - 0.24)) with (0.76 * d) in * by lra. set (nh := 0.76 * d) in *. assert (N : 0 < nh) by (unfold nh; lra).
  unfold settled. fold nh. split; [exact T|]. split; [lra|]. split.
  - assert (X : 0 <= m / nh). { unfold Rdiv. apply Rmult_le_pos; [lra|]. left. now apply Rinv_0_lt_compat. }
    destruct (C38_temperature_aux (m / nh) e 0.24 X U0 ltac:(lra)) as (t' & G' & _ & TH).
    rewrite G in G'. injection G' as <-. exact TH.
  - intros X a b h0 h1 h2 HB EB.
    destruct (balances nh t (m / nh) N T X) as [B1 B2].
    replace (m / nh * nh) with m in B1, B2 by (field; lra).
    apply B1 in HB as [-> ->]. apply B2 in EB as (_ & -> & ->). unfold nebynh, yy in RS.
    replace (nHp n nh t (m / nh) + 0.24 / (4 * 0.76) * (nHep n nh t (m / nh) + 2 * nHepp n nh t (m / nh)) - m / nh)
      with (nHp n nh t (m / nh) + 0.24 / 4 / (1 - 0.24) * nHep n nh t (m / nh) + 2 * (0.24 / 4 / (1 - 0.24)) * nHepp n nh t (m / nh) - m / nh)
      by lra.
    exact RS.
Qed.

(** The temperatures shown. *)
Lemma network_temp_nth : forall dens u ts, length dens = length u -> List.Forall (fun d => 0 < d) dens -> List.Forall (fun e => 0 < e) u ->
  GridModel.network_temp n mi dens u 0.24 = Value ts ->
  length ts = length u /\
  forall i d e, nth_error dens i = Some d -> nth_error u i = Some e -> exists t m, nth_error ts i = Some t /\ settled n (converge n) d e m t.
Proof.
  intros dens u ts L D U E. unfold GridModel.network_temp in E.
  destruct (get_equilib_ne n mi dens u 0.24) as [ne| | |] eqn:Q; try discriminate.
  destruct (GridModel.temps 0.24 (map (fun d => d * (1 - 0.24)) dens) u ne) as [ts'|] eqn:Ts; [|discriminate]. injection E as ->.
  destruct (equilib dens u ne L D U Q) as [LN ALL].
  split.
  - clear -Ts LN L. revert u ne ts LN L Ts. induction dens as [|d dens IH]; intros [|e u] [|m ne] ts LN L Ts; try discriminate;
      cbn [map GridModel.temps] in Ts; [injection Ts as <-; reflexivity|].
    destruct (get_temp (m / (d * (1 - 0.24))) e 0.24); [|discriminate].
    destruct (GridModel.temps 0.24 (map (fun d => d * (1 - 0.24)) dens) u ne) eqn:Z; [|discriminate]. injection Ts as <-.
    cbn [length]. f_equal. apply (IH u ne); auto.
  - intros i d e Nd Nu. destruct (GridProofs3.nth_some_len _ ne i) as (m & Nm).
    { rewrite LN. apply nth_error_Some. rewrite Nd. discriminate. }
    destruct (GridProofs3.temps_nth 0.24 _ u ne ts i (d * (1 - 0.24)) e m Ts) as (t & Nt & Gt);
      [rewrite nth_error_map, Nd; reflexivity|exact Nu|exact Nm|].
    destruct (ALL i d e m Nd Nu Nm) as (_ & _ & t' & G' & ST). rewrite Gt in G'. injection G' as <-.
    exists t, m. auto.
Qed.

(** Neutral fractions. *)
Lemma neutral_nth : forall dens u fs, length dens = length u -> List.Forall (fun d => 0 < d) dens -> List.Forall (fun e => 0 < e) u ->
  get_neutral_fraction n mi dens u 0.24 = Value fs ->
  length fs = length dens /\
  forall i d e f, nth_error dens i = Some d -> nth_error u i = Some e -> nth_error fs i = Some f ->
    0 < d /\ 0 < e /\ 0 < f <= 1 /\ exists m t, settled n (converge n) d e m t /\
      (1e-40 < m / (0.76 * d) -> hydrogen_at n m t f (1 - f)).
Proof.
  intros dens u fs L D U E. destruct (C40_neutral_aux n mi dens u 0.24 fs SH ltac:(lra) ltac:(lra) L D U E) as (ne & En & LF & H).
  split; [exact LF|]. intros i d e f Nd Nu Nf.
  destruct (equilib dens u ne L D U En) as [LN ALL].
  destruct (GridProofs3.nth_some_len _ ne i) as (m & Nm). { rewrite LN. apply nth_error_Some. rewrite Nd. discriminate. }
  destruct (ALL i d e m Nd Nu Nm) as (D0 & U0 & t & G & ST).
  destruct (H i d e m f Nd Nu Nm Nf) as (t' & G' & EF & F01). rewrite G in G'. injection G' as <-.
  split; [exact D0|]. split; [exact U0|]. split; [exact F01|].
  exists m, t. split; [exact ST|]. intros X.
  replace (d * (1 - 0.24)) with (0.76 * d) in EF by lra.
  destruct (balances (0.76 * d) t (m / (0.76 * d)) ltac:(lra) (proj1 ST) X) as [B1 _].
  replace (m / (0.76 * d) * (0.76 * d)) with m in B1 by (field; lra).
  apply B1. split; [exact EF|]. unfold nHp. lra.
Qed.
End net.
